(** Model of the logging functions of countlog in several goroutines, which share handlerCache and the levels (countlog.go:144-166, 198-220, root.go).

    Each access to the cache is a step, so is the making of handlers, the reading of spi.MinCallLevel, and each call of a handler, which returns or panics (one that
    blocks makes no further step).  The calls are those that pass the level at their beginning (countlog.go:38, C30); what log does with an error after the handlers have
    returned (countlog.go:158-165) touches nothing of this, it is C31 and C137.  Handlers of the aggregator and the writer are numbers; loglog.Error and
    debug.PrintStack (root.go:87-90) are one step.  A handler that logs itself makes other calls. *)
From Verif Require Import Base MsgfmtModel CountlogModel.

(** A call of log: countlog.go:146; the function, file and line are those that runtime.Caller tells (countlog.go:207, root.go:98) *)
Record call := mkCall { clevel : Z; cname : bytes; cagg : bytes; cctx : option nat; cprops : list value; cfunc : bytes; cfile : bytes; cline : Z }.

(** countlog.go:208-216 *)
Definition siteOf (c : call) : site := mkSite (cctx c) (cfunc c) (cfile c) (cline c) (cname c) (cagg c) (cprops c).
(** root.go:79-82 *)
Definition unknownSite (st : site) (c : call) : site := mkSite (Context st) (Func st) (bs "unknown") 0 (SiteEvent st) (Agg st) (cprops c).
(** root.go:105-108 *)
Definition placeSite (st : site) (c : call) : site := mkSite (Context st) (Func st) (cfile c) (cline c) (SiteEvent st) (Agg st) (cprops c).

(** Where a call is; countlog.go:146-157, 198-220, root.go:36-113 *)
Inductive pc :=
| LFresh
| LBegun (c : call)                              (* countlog.go:199 *)
| LMissed (c : call)                             (* countlog.go:207 *)
| LMade (c : call) (r : root nat)                (* countlog.go:218 *)
| LRedirected (c : call) (st : site)             (* root.go:98 *)
| LMissedPlace (c : call) (st : site)            (* root.go:105 *)
| LMadePlace (c : call) (r : root nat)           (* root.go:110 *)
| LRound (c : call) (r : root nat)               (* root.go:36, 57: Handle of r *)
| LOut (c : call) (r : root nat) (next : option nat) (* root.go:43, 65; the handler that is called next *)
| LStats (c : call) (r : root nat) (h : nat)     (* root.go:67 *)
| LPanicked (c : call) (r : root nat)            (* root.go:38-41, 59-62: a panic was recovered *)
| LUnknown (c : call) (st : site)                (* root.go:79 *)
| LOver                                          (* Handle has returned *)
| LCrashed.                                      (* a panic reached the caller of the logging function *)

(** What is seen: SetMinLevel was called; call [g] began; handlers were made, or making them panicked; the output handler [h] was given the event and returned, or
    panicked; the same for the statistics; loglog.Error was called; the call returned; it panicked.  countlog.go:28, 146-157, root.go:13-91 *)
Inductive ob :=
| OMin (l : Z)
| OBegin (g : nat) (c : call)
| OMade (g : nat) (st : site) (a : option (option nat * nat))
| OOut (g : nat) (h : nat) (ok : bool)
| OCount (g : nat) (h : nat) (ok : bool)
| OTold (g : nat)
| ORet (g : nat)
| OCrash (g : nat).

(** The calls and what was seen, oldest first; countlog.go:144-157 *)
Record calls := mkCalls { pcs : nat -> pc; obs : list ob }.
(** handlerCache, the levels, and the calls: countlog.go:144, spi.go:9-13 *)
Definition state := CountlogModel.state calls nat.

(** Steps; the numbers are those of the calls: countlog.go:28-31, 146-157, root.go:13-113.  [Makes]: what EventAggregator.HandlerOf and EventWriter.HandlerOf give ([None]: one
    of them panics). *)
Inductive event :=
| SetMin (l : Z)
| Begin (g : nat) (c : call)
| Load (g : nat)
| Makes (g : nat) (a : option (option nat * nat))
| Store (g : nat)
| Handles (g : nat)
| Outs (g : nat) (ok : bool)
| Counts (g : nat) (ok : bool)
| Recovers (g : nat).

(** Nothing cached: countlog.go:144, spi.go:9-13 *)
Definition init : state := mkState initialLevels (fun _ => None) (fun _ _ => None) (mkCalls (fun _ => LFresh) []).
(** Call [g] goes to [x], and [l] is seen; countlog.go:146-157 *)
Definition go (s : state) (g : nat) (x : pc) (l : list ob) : state :=
  setWorld s (mkCalls (fun v => if (v =? g)%nat then x else pcs (world s) v) (obs (world s) ++ l)).
(** The handler that newRootHandler makes: root.go:13-28 *)
Definition rootOf (st : site) (m : mode) (a : option nat * nat) : root nat := mkRoot st (fst a) (snd a) m.
(** root.go:13-28: handlers for [st] are made; then the call goes on at [next] *)
Definition makes (s : state) (g : nat) (st : site) (m : mode) (a : option (option nat * nat)) (next : root nat -> pc) : state :=
  match a with
  | Some x => go s g (next (rootOf st m x)) [OMade g st a]
  | None => go s g LCrashed [OMade g st a; OCrash g]
  end.

(** countlog.go:146-157, 198-220, root.go:13-113, one step; [None]: not possible *)
Definition step (s : state) (e : event) : option state :=
  let at_ g := pcs (world s) g in
  match e with
  | SetMin l => Some (mkState (SetMinLevel l) (byEvent s) (byPlace s) (mkCalls (pcs (world s)) (obs (world s) ++ [OMin l])))
  | Begin g c => match at_ g with LFresh => Some (go s g (LBegun c) [OBegin g c]) | _ => None end
  | Load g =>
    match at_ g with
    | LBegun c =>
      match byEvent s (cname c) with
      | Some (Root r) => Some (go s g (LRound c r) [])
      | Some (Redirector st) => Some (go s g (LRedirected c st) [])
      | None => Some (go s g (LMissed c) [])
      end
    | LRedirected c st => match byPlace s (cfile c) (cline c) with Some r => Some (go s g (LRound c r) []) | None => Some (go s g (LMissedPlace c st) []) end
    | _ => None
    end
  | Makes g a =>
    match at_ g with
    | LMissed c => Some (makes s g (siteOf c) NormalMode a (LMade c))
    | LMissedPlace c st => Some (makes s g (placeSite st c) FallbackMode a (LMadePlace c))
    | LUnknown c st => Some (makes s g (unknownSite st c) FallbackMode a (LRound c))
    | _ => None
    end
  | Store g =>
    match at_ g with
    | LMade c r => Some (storeEvent (go s g (LRound c r) []) (cname c) (Root r))
    | LMadePlace c r => Some (storePlace (go s g (LRound c r) []) (cfile c) (cline c) r)
    | _ => None
    end
  | Handles g =>
    match at_ g with
    | LRound c r =>
      match r_stats r with
      | None => Some (go s g (LOut c r None) [])
      | Some h => if MinCallLevel (st_levels s) <=? clevel c then Some (go s g (LOut c r (Some h)) []) else Some (go s g (LStats c r h) [])
      end
    | _ => None
    end
  | Outs g ok =>
    match at_ g with
    | LOut c r next =>
      if ok then match next with None => Some (go s g LOver [OOut g (r_out r) true; ORet g]) | Some h => Some (go s g (LStats c r h) [OOut g (r_out r) true]) end
      else Some (go s g (LPanicked c r) [OOut g (r_out r) false])
    | _ => None
    end
  | Counts g ok =>
    match at_ g with
    | LStats c r h => if ok then Some (go s g LOver [OCount g h true; ORet g]) else Some (go s g (LPanicked c r) [OCount g h false])
    | _ => None
    end
  | Recovers g =>
    match at_ g with
    | LPanicked c r =>
      match r_mode r with
      | NormalMode => Some (storeEvent (go s g (LUnknown c (r_site r)) []) (SiteEvent (r_site r)) (Redirector (r_site r)))
      | FallbackMode => Some (go s g LOver [OTold g; ORet g])
      end
    | _ => None
    end
  end.
(** countlog.go:146-157, root.go:13-113, many steps *)
Fixpoint run (s : state) (evs : list event) : option state :=
  match evs with
  | [] => Some s
  | e :: evs => match step s e with Some s' => run s' evs | None => None end
  end.
