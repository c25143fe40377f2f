(** What the logging functions should do, stated with tables of methods and levels and with what the handlers do to the world. *)
From Verif Require Import Base MsgfmtModel CountlogModel.

(** The methods without error: of the package, and of a Context with its number and the level given to SuppressLevelsBelow. *)
Inductive method :=
| PTrace | PDebug | PInfo | PWarn | PError | PFatal | PLog (level : Z)
| CTrace (ctx : nat) (below : Z) | CDebug (ctx : nat) | CInfo (ctx : nat) | CWarn (ctx : nat) | CError (ctx : nat) | CFatal (ctx : nat).
(** The methods with an error. *)
Inductive callMethod :=
| PTraceCall | PDebugCall | PInfoCall | CTraceCall (ctx : nat) | CDebugCall (ctx : nat) | CInfoCall (ctx : nat) | CLogAccess (ctx : nat).

(** The levels as numbers of the documentation: trace 10, debug 20, info 30, warn 40, error 50, fatal 60. *)
Definition level_of (m : method) : Z :=
  match m with
  | PTrace | CTrace _ _ => 10
  | PDebug | CDebug _ => 20
  | PInfo | CInfo _ => 30
  | PWarn | CWarn _ => 40
  | PError | CError _ => 50
  | PFatal | CFatal _ => 60
  | PLog l => l
  end.
(** The methods subject to the level setting. *)
Definition gated (m : method) : bool :=
  match m with PWarn | PError | PFatal | CWarn _ | CError _ | CFatal _ => false | _ => true end.
Definition context_of (m : method) : option nat :=
  match m with CTrace c _ | CDebug c | CInfo c | CWarn c | CError c | CFatal c => Some c | _ => None end.
(** Suppressed by SuppressLevelsBelow. *)
Definition suppressed (m : method) : bool := match m with CTrace _ l => 10 <? l | _ => false end.
(** Passes the level setting [min] and is not suppressed. *)
Definition passes (min : Z) (m : method) : Prop := (gated m = true -> min <= level_of m) /\ suppressed m = false.

Definition call_level_of (m : callMethod) : Z :=
  match m with
  | PTraceCall | CTraceCall _ => 10
  | PDebugCall | CDebugCall _ => 20
  | PInfoCall | CInfoCall _ | CLogAccess _ => 30
  end.
(** The level of the record of a failure. *)
Definition failure_level_of (m : callMethod) : Z := match m with CLogAccess _ => 50 | _ => 40 end.
Definition call_context_of (m : callMethod) : option nat :=
  match m with CTraceCall c | CDebugCall c | CInfoCall c | CLogAccess c => Some c | _ => None end.

Section Spec.
  Context {W H : Type}.
  Variable E : environment W H.

  (** The method called in code. *)
  Definition invoke (m : method) (event : bytes) (properties : list value) (now : Z) (stack : list frame)
    : state W H -> result (state W H) unit :=
    match m with
    | PTrace => Trace E event properties now stack
    | PDebug => Debug E event properties now stack
    | PInfo => Info E event properties now stack
    | PWarn => Warn E event properties now stack
    | PError => Error E event properties now stack
    | PFatal => Fatal E event properties now stack
    | PLog l => Log E event properties now stack l
    | CTrace c l => Ctx_Trace E event properties now stack c l
    | CDebug c => Ctx_Debug E event properties now stack c
    | CInfo c => Ctx_Info E event properties now stack c
    | CWarn c => Ctx_Warn E event properties now stack c
    | CError c => Ctx_Error E event properties now stack c
    | CFatal c => Ctx_Fatal E event properties now stack c
    end.
  Definition invokeCall (m : callMethod) (event : bytes) (err : option error) (properties : list value) (now : Z) (stack : list frame)
    : state W H -> result (state W H) (option bytes) :=
    match m with
    | PTraceCall => TraceCall E event properties now stack err
    | PDebugCall => DebugCall E event properties now stack err
    | PInfoCall => InfoCall E event properties now stack err
    | CTraceCall c => Ctx_TraceCall E event properties now stack c err
    | CDebugCall c => Ctx_DebugCall E event properties now stack c err
    | CInfoCall c => Ctx_InfoCall E event properties now stack c err
    | CLogAccess c => Ctx_LogAccess E event properties now stack c err
    end.

  (** Delivery of an event to the two handlers of an event name: the output handler, and if there is a statistics
      handler, to this always, and to the output handler only from level [minCall] on.  Nothing else happens to the world. *)
  Inductive delivers (minCall : Z) : option H -> H -> event -> W -> event -> W -> Prop :=
  | deliver_output : forall out ev w ev' w',
      handle E out ev w = (w', (ev', Returned)) -> delivers minCall None out ev w ev' w'
  | deliver_both : forall stats out ev w ev1 w1 ev' w', minCall <= Level ev ->
      handle E out ev w = (w1, (ev1, Returned)) -> handle E stats ev1 w1 = (w', (ev', Returned)) ->
      delivers minCall (Some stats) out ev w ev' w'
  | deliver_stats : forall stats out ev w ev' w', Level ev < minCall ->
      handle E stats ev w = (w', (ev', Returned)) -> delivers minCall (Some stats) out ev w ev' w'.

  (** The same, ended by a panic of the one or the other. *)
  Inductive breaks (minCall : Z) : option H -> H -> event -> W -> event -> W -> Prop :=
  | break_output : forall out ev w ev' w',
      handle E out ev w = (w', (ev', Panicked)) -> breaks minCall None out ev w ev' w'
  | break_both1 : forall stats out ev w ev' w', minCall <= Level ev ->
      handle E out ev w = (w', (ev', Panicked)) -> breaks minCall (Some stats) out ev w ev' w'
  | break_both2 : forall stats out ev w ev1 w1 ev' w', minCall <= Level ev ->
      handle E out ev w = (w1, (ev1, Returned)) -> handle E stats ev1 w1 = (w', (ev', Panicked)) ->
      breaks minCall (Some stats) out ev w ev' w'
  | break_stats : forall stats out ev w ev' w', Level ev < minCall ->
      handle E stats ev w = (w', (ev', Panicked)) -> breaks minCall (Some stats) out ev w ev' w'.

  (** The two sinks make the handlers [stats] and [out] for the site. *)
  Definition builds (st : site) (w : W) (stats : option H) (out : H) (w' : W) : Prop :=
    exists w1, aggregatorHandlerOf E st w = (w1, Some stats) /\ writerHandlerOf E st w1 = (w', Some out).

  (** Sinks that make a handler for every site. *)
  Definition sinks_never_panic : Prop :=
    (forall st w, snd (aggregatorHandlerOf E st w) <> None) /\ (forall st w, snd (writerHandlerOf E st w) <> None).
  (** Handlers that return or panic, and do not touch the error of the event. *)
  Definition handlers_end : Prop :=
    forall h ev w, snd (snd (handle E h ev w)) <> Blocked /\ Err (fst (snd (handle E h ev w))) = Err ev.
End Spec.

(** The place a call is in: the frame above the called function. *)
Definition call_place (stack : list frame) : frame := match stack with f :: _ => f | [] => mkFrame [] [] 0 end.
Definition site_of_call (ctx : option nat) (stack : list frame) (event agg : bytes) (properties : list value) : site :=
  mkSite ctx (f_func (call_place stack)) (f_file (call_place stack)) (f_line (call_place stack)) event agg properties.

(** * Whole programs in one goroutine with the default aggregator *)
From Verif Require StatsModel StatsSpec.

(** A call: what, event name, pairs of properties, time, and the place it is made from. *)
Inductive op :=
| OPlain (m : method) (event : bytes) (kvs : list (bytes * value)) (now : Z) (stack : list frame)
| OCall (m : callMethod) (event : bytes) (err : option bytes) (kvs : list (bytes * value)) (now : Z) (stack : list frame)
| OSetMin (level : Z).

(** The world of such a program: the events given to the output, each with the site its handler was made for. *)
Definition records := list (site * event).
(** The handlers: of the aggregator, and of the writer. *)
Inductive dhandler := HDummy | HOut (st : site).
(** The default configuration: statistics without collector; a writer whose handlers never panic; [fmt] formats texts. *)
Definition default (fmt : bytes -> list value -> bytes) : environment records dhandler := {|
  aggregatorHandlerOf := fun st w =>
    (w, match snd (StatsModel.HandlerOf false (Agg st) (Sample st)) with
        | StatsModel.AggPanics => None
        | StatsModel.AggNil => Some None
        | StatsModel.AggDummy | StatsModel.AggCount _ => Some (Some HDummy)
        end);
  writerHandlerOf := fun st w => (w, Some (HOut st));
  handle := fun h ev w => (match h with HDummy => w | HOut st => w ++ [(st, ev)] end, (ev, Returned));
  loglogError := fun w => w;
  printStack := fun w => w;
  sprint := fun event props w => (w, Returns _ (fmt event props));
  others := fun s => s
|}.
Definition initial : state records dhandler := mkState (mkLevels 10 15) (fun _ => None) (fun _ _ => None) [].

(** Running a program; [None]: a call panicked or did not return.  Also the results of the calls. *)
Fixpoint execute {W H : Type} (E : environment W H) (ops : list op) (s : state W H)
  : option (state W H * list (option bytes)) :=
  match ops with
  | [] => Some (s, [])
  | OPlain m event kvs now stack :: ops =>
    match invoke E m event (StatsSpec.flat kvs) now stack s with
    | Ret _ s => execute E ops s
    | _ => None
    end
  | OCall m event err kvs now stack :: ops =>
    match invokeCall E m event (match err with None => None | Some t => Some (Some t) end) (StatsSpec.flat kvs) now stack s with
    | Ret r s => let? x := execute E ops s in Some (fst x, r :: snd x)
    | _ => None
    end
  | OSetMin l :: ops => execute E ops (mkState (SetMinLevel l) (byEvent s) (byPlace s) (world s))
  end.

(** A value of "agg" has to be a string. *)
Definition agg_ok (kvs : list (bytes * value)) : Prop :=
  forall v, In (bs "agg", v) kvs -> exists t, v = VStr t.
Definition op_ok (o : op) : Prop :=
  match o with OPlain _ _ kvs _ _ | OCall _ _ _ kvs _ _ => agg_ok kvs | OSetMin _ => True end.

(** The event a call logs under level setting [min], the site of the call, and whether it asks for an aggregation. *)
Definition logged (min : Z) (o : op) : option (site * event * bool) :=
  match o with
  | OPlain m event kvs now stack =>
    if (gated m && (level_of m <? min)) || suppressed m then None
    else Some (site_of_call (context_of m) stack event [] (StatsSpec.flat kvs),
               mkEvent (level_of m) (context_of m) None now (StatsSpec.flat kvs),
               existsb (fun kv => bytes_eqb (fst kv) (bs "agg")) kvs)
  | OCall m event err kvs now stack =>
    match err with
    | None =>
      if call_level_of m <? min then None
      else Some (site_of_call (call_context_of m) stack event (bs "call") (StatsSpec.flat kvs),
                 mkEvent (call_level_of m) (call_context_of m) None now (StatsSpec.flat kvs), true)
    | Some t =>
      Some (site_of_call (call_context_of m) stack event (bs "call") (StatsSpec.flat kvs),
            mkEvent (failure_level_of m) (call_context_of m) (Some (Some t)) now (StatsSpec.flat kvs), true)
    end
  | OSetMin _ => None
  end.
(** The first event logged under a name settles the site for all of them, and whether they are only output from
    level min + 5 on. *)
Fixpoint written (min minCall : Z) (firsts : bytes -> option (site * bool)) (ops : list op) : records :=
  match ops with
  | [] => []
  | o :: ops =>
    match o with
    | OSetMin l => written l (l + 5) firsts ops
    | _ =>
      match logged min o with
      | None => written min minCall firsts ops
      | Some (st, ev, asks) =>
        let f := match firsts (SiteEvent st) with Some f => f | None => (st, asks) end in
        (if snd f && (Level ev <? minCall) then [] else [(fst f, ev)])
        ++ written min minCall (fun n => if bytes_eqb n (SiteEvent st) then Some f else firsts n) ops
      end
    end
  end.
(** What the calls with an error return. *)
Fixpoint returned (fmt : bytes -> list value -> bytes) (ops : list op) : list (option bytes) :=
  match ops with
  | [] => []
  | OCall m event err kvs now stack :: ops =>
    match err with None => None | Some t => Some (fmt event (StatsSpec.flat kvs) ++ bs ": " ++ t) end :: returned fmt ops
  | _ :: ops => returned fmt ops
  end.
