(** Model of the handlers and sinks of countlog/spi that pass events on, and of how the output and the statistics make handlers for a site
    (countlog/spi/spi.go, spi/func.go, output/writer.go, stats/stats.go, stats/counter.go, countlog/root.go). *)
From Verif Require Import Base CountlogModel.

Section Handlers.
  (** Functions as FuncEventHandler (spi/func.go:9), collectors and executors (stats/stats.go:7-10), formats (output/writer.go:12), formatters, writers; a world *)
  Variables (Fn Collector Executor Format Formatter Writer W : Type).
  (** A writer as EventWriter keeps it: output/writer.go:63-71 *)
  Inductive writer := Recycle (w : Writer).
  (** spi/spi.go:97, spi/func.go:9, spi/spi.go:109-111, stats/counter.go:5-9, output/writer.go:42-46.  Of a countEvent only what createHandler passes on is kept *)
  Inductive handler :=
  | EventHandlers (l : list handler)
  | FuncEventHandler (f : Fn)
  | DummyEventHandler (st : site)
  | countEvent (e : Executor) (c : Collector) (st : site)
  | writeEvent (st : site) (f : Formatter) (w : writer)
  | oneHandler (st : site) (h : handler)
  | statsAndOutput (st : site) (stats output : handler).
  (** What a function, countEvent (stats/counter.go:11-17) or writeEvent (output/writer.go:48-55) does; the handlers of countlog/root.go:36-44, 57-68 are in CountlogModel *)
  Variables (callFn : Fn -> event -> W -> W * ends) (count : Executor -> Collector -> site -> event -> W -> W * ends)
    (write : Formatter -> writer -> event -> W -> W * ends) (rootHandle : handler -> event -> W -> W * ends).

  (** spi/spi.go:99-103: the loop; a panic leaves it *)
  Fixpoint Handle (h : handler) (ev : event) (w : W) : W * ends :=
    match h with
    | EventHandlers l =>
      (fix loop (l : list handler) (w : W) : W * ends :=
         match l with
         | [] => (w, Returned)
         | h :: l => let '(w, e) := Handle h ev w in match e with Returned => loop l w | _ => (w, e) end
         end) l w
    (* spi/func.go:11-13 *)
    | FuncEventHandler f => callFn f ev w
    (* spi/spi.go:113-114 *)
    | DummyEventHandler _ => (w, Returned)
    | countEvent e c st => count e c st ev w
    | writeEvent _ f wr => write f wr ev w
    | oneHandler _ _ | statsAndOutput _ _ _ => rootHandle h ev w
    end.
  (** LogSite: outer None a panic, inner None nil.  spi/spi.go:105-107, 116-118, spi/func.go:15-17, stats/counter.go:23-25, output/writer.go:57-59, countlog/root.go:46-48, 70-72 *)
  Fixpoint LogSite (h : handler) : option (option site) :=
    match h with
    | EventHandlers [] => None
    | EventHandlers (h :: _) => LogSite h
    | FuncEventHandler _ => Some None
    | DummyEventHandler st | countEvent _ _ st | writeEvent st _ _ | oneHandler st _ | statsAndOutput st _ _ => Some (Some st)
    end.

  (** stats/stats.go:7-10, output/writer.go:11-14 and spi/func.go:3 *)
  Inductive sink := EventAggregator (e : Executor) (c : option Collector) | EventWriter (f : option Format) (w : writer) | FuncEventSink (f : site -> option handler).
  (** The variable DefaultExecutor (stats/stats.go:20), and os.Stdout (output/writer.go:24) *)
  Variables (DefaultExecutor : Executor) (Stdout : Writer).
  (** stats/stats.go:17-26 *)
  Definition NewEventAggregator (executor : option Executor) (collector : option Collector) : sink :=
    EventAggregator (match executor with None => DefaultExecutor | Some e => e end) collector.
  (** output/writer.go:21-31 *)
  Definition NewEventWriter (format : option Format) (w : option Writer) : sink :=
    EventWriter format (Recycle (match w with None => Stdout | Some w => w end)).

  (** The method FormatterOf of the format (output/writer.go:34); None: it panics.  The texts agg of a site: stats/stats.go:29-36 (C54); outer None: a panic, inner None: none is given *)
  Variables (FormatterOf : Format -> site -> option Formatter) (aggOf : site -> option (option bytes)) (extractorPanics : site -> bool).
  (** stats/stats.go:41-60.  The extractor may panic (46).  Inner None: nil *)
  Definition createHandler (e : Executor) (c : option Collector) (agg : bytes) (st : site) : option (option handler) :=
    match c with
    | None => Some (Some (DummyEventHandler st))
    | Some c => if extractorPanics st then None else if list_eq_dec Z.eq_dec agg (bs "counter") then Some (Some (countEvent e c st)) else Some None
    end.
  (** stats/stats.go:28-39, output/writer.go:33-40, spi/func.go:5-7; outer None: a panic, inner None: nil *)
  Definition HandlerOf (s : sink) (st : site) : option (option handler) :=
    match s with
    | EventAggregator e c => match aggOf st with None => None | Some None => Some None | Some (Some agg) => createHandler e c agg st end
    | EventWriter None _ => None
    | EventWriter (Some f) w => match FormatterOf f st with None => None | Some f => Some (Some (writeEvent st f w)) end
    | FuncEventSink f => Some (f st)
    end.
End Handlers.
