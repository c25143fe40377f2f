(** Model of countlog/stats: the event aggregator, its windows and their export. *)
From Verif Require Import Base MsgfmtModel.

(** * stats.go *)

(** strings.Split(s, ",") of the Go library, named in window.go:99 *)
Fixpoint splitComma (acc s : bytes) : list bytes :=
  match s with
  | [] => [acc]
  | c :: s => if c =? 44 then acc :: splitComma [] s else splitComma (acc ++ [c]) s
  end.

(** stats.go:33-37: the value of the key "agg"; outer [None]: panic at one of the two type assertions or at sample[i+1],
    inner [None]: the loop ends. *)
Fixpoint findAgg (sample : list value) : option (option bytes) :=
  match sample with
  | [] => Some None
  | VStr k :: r =>
    if bytes_eqb k (bs "agg") then match r with VStr a :: _ => Some (Some a) | _ => None end
    else match r with [] => Some None | _ :: r => findAgg r end
  | _ => None
  end.

(** window.go:95-101: dimensionElems (the last "dim" counts).  [None]: panic. *)
Fixpoint findDim (dimensionElems : list bytes) (sample : list value) : option (list bytes) :=
  match sample with
  | [] => Some dimensionElems
  | VStr k :: r =>
    if bytes_eqb k (bs "dim") then
      match r with VStr d :: r => findDim (splitComma [] d) r | _ => None end
    else match r with [] => Some dimensionElems | _ :: r => findDim dimensionElems r end
  | _ => None
  end.

(** window.go:102-111: the indices; [i]: index of the head of [sample].  [None]: panic. *)
Fixpoint findIndices (dimensionElems : list bytes) (i : nat) (sample : list value) : option (list nat) :=
  match sample with
  | [] => Some []
  | VStr k :: r =>
    let here := flat_map (fun d => if bytes_eqb k d then [i; S i] else []) dimensionElems in
    match r with
    | [] => Some here
    | _ :: r => let? rest := findIndices dimensionElems (i + 2) r in Some (here ++ rest)
    end
  | _ => None
  end.

(** window.go:94-140.  The extractors for 0, 2, 4, 8 and more indices do the same; only where the array of the dimension
    is allocated differs.  [None]: panic. *)
Definition newDimensionExtractor (sample : list value) : option (list nat) :=
  let? dimensionElems := findDim [] sample in findIndices dimensionElems 0 sample.

(** What HandlerOf gives: a panic, no handler, the handler that does nothing, the handler that counts; and whether
    a window was made (and with it a goroutine started). stats.go:28-59. *)
Inductive aggregate := AggPanics | AggNil | AggDummy | AggCount (indices : list nat).

(** stats.go:41-59 *)
Definition createHandler (collector : bool) (agg : bytes) (sample : list value) : bool * aggregate :=
  if negb collector then (false, AggDummy)
  else
    match newDimensionExtractor sample with
    | None => (false, AggPanics)
    | Some indices =>
      if bytes_eqb agg (bs "counter") then (true, AggCount indices) else (true, AggNil)
    end.

(** stats.go:28-39; [collector]: a collector is configured, [agg], [sample]: site.Agg, site.Sample *)
Definition HandlerOf (collector : bool) (agg : bytes) (sample : list value) : bool * aggregate :=
  if negb (bytes_eqb agg []) then createHandler collector agg sample
  else
    match findAgg sample with
    | None => (false, AggPanics)
    | Some None => (false, AggNil)
    | Some (Some a) => createHandler collector a sample
    end.

(** window.go:204-206 and 145-152: the dimension of an event: a string for every index; [None]: panic, the index is out
    of range or the property is not a string. *)
Fixpoint extract (indices : list nat) (properties : list value) : option (list bytes) :=
  match indices with
  | [] => Some []
  | i :: r =>
    match nth_error properties i with
    | Some (VStr s) => let? rest := extract r properties in Some (s :: rest)
    | _ => None
    end
  end.

(** * counter.go, state.go, window.go *)

(** state.go:30: CounterMonoid is an uint64. *)
Definition uint64 (n : Z) : Z := n mod 2 ^ 64.
(** state.go:42: float64 of an uint64: the nearest float64, to even in the middle.  The result is an integer. *)
Definition float64 (n : Z) : Z :=
  let e := Z.max 0 (Z.log2 n - 52) in
  let q := n / 2 ^ e in
  let r := n mod 2 ^ e in
  let half := 2 ^ (e - 1) in
  if e =? 0 then n
  else if (half <? r) || ((r =? half) && Z.odd q) then (q + 1) * 2 ^ e else q * 2 ^ e.

(** state.go:9-14; the timestamp is left out. *)
Record point := mkPoint { Event : bytes; Dimension : list bytes; Value : Z }.

(** Who holds the lock of a shard: a call of Handle or a call of Export. *)
Inductive holder := ByHandle (h : nat) | ByExport (x : nat).
(** counter.go:11-17, where a call of Handle is: not called, between Lock and line 14, after line 15, returned, ended by a
    panic of Extract (the lock of its shard is not released). *)
Inductive hpc := HFresh | HLocked (shard : nat) (properties : list value) | HCounted (shard : nat) | HReturned | HPanicked (shard : nat).
(** window.go:59-86, where a call of Export is: not called, before Lock of a shard, in the loop over the map with the keys still
    to come, returned. *)
Inductive xpc := XFresh | XBefore (shard : nat) | XIn (shard : nat) (keys : list (list bytes)) | XReturned.

(** window.go:14-24: the maps of the shards, their locks; and the calls. *)
Record window := mkWindow {
  shards : nat -> list (list bytes * Z);
  locks : nat -> option holder;
  hs : nat -> hpc;
  xs : nat -> xpc
}.

(** window.go:26-39, without the goroutine *)
Definition newWindow : window := mkWindow (fun _ => []) (fun _ => None) (fun _ => HFresh) (fun _ => XFresh).

(** The atomic steps.  HLock: call h of Handle on goroutine [goid] gets the lock (counter.go:12-13); HExtract: it finds the
    dimension [d] and counts, or panics (14-15); HUnlock (16).  XCall: call x of Export begins (window.go:59); XLock: it locks its
    next shard (66); XCollect: it hands point [p] to the collector (70-84); XUnlock: the loop over the map is over (67). *)
Inductive event :=
| HLock (h : nat) (goid : nat) (properties : list value)
| HExtract (h : nat) (d : option (list bytes))
| HUnlock (h : nat)
| XCall (x : nat)
| XLock (x : nat)
| XCollect (x : nat) (p : point)
| XUnlock (x : nat).

(** Updates; no counterpart in the source. For the fields of window.go:14-24. *)
Definition upd {A} (f : nat -> A) (i : nat) (x : A) : nat -> A := fun j => if (j =? i)%nat then x else f j.
(** Equality of keys of MapMonoid, arrays of strings *)
Definition key_eqb (a b : list bytes) : bool := if list_eq_dec (list_eq_dec Z.eq_dec) a b then true else false.
(** window.go:210-214 with counter.go:15: the entry is added when it is missing, and 1 is added to it. *)
Fixpoint increment (m : list (list bytes * Z)) (d : list bytes) : list (list bytes * Z) :=
  match m with
  | [] => [(d, uint64 (0 + 1))]
  | (k, c) :: m => if key_eqb k d then (k, uint64 (c + 1)) :: m else (k, c) :: increment m d
  end.
(** A lookup, and an assignment to an entry (state.go:43). *)
Fixpoint get (m : list (list bytes * Z)) (d : list bytes) : option Z :=
  match m with
  | [] => None
  | (k, c) :: m => if key_eqb k d then Some c else get m d
  end.
(** state.go:43 *)
Fixpoint set_entry (m : list (list bytes * Z)) (d : list bytes) (v : Z) : list (list bytes * Z) :=
  match m with
  | [] => []
  | (k, c) :: m => if key_eqb k d then (k, v) :: m else (k, c) :: set_entry m d v
  end.
(** An entry of the map has been visited by the loop of window.go:70-85 *)
Fixpoint remove_key (l : list (list bytes)) (d : list bytes) : list (list bytes) :=
  match l with
  | [] => []
  | k :: l => if key_eqb k d then l else k :: remove_key l d
  end.

(** Equality of what window.go:204-206 gives *)
Definition option_key_eqb (a b : option (list bytes)) : bool :=
  match a, b with Some a, Some b => key_eqb a b | None, None => true | _, _ => false end.
(** == on points; state.go:9-14 *)
Definition point_eqb (a b : point) : bool :=
  bytes_eqb (Event a) (Event b) && key_eqb (Dimension a) (Dimension b) && (Value a =? Value b).

Section Window.
  (** The indices of the handler (window.go:156, 201). *)
  Variable indices : list nat.

  (** window.go:53-57 with gls.GoID() = goid *)
  Definition shardOf (goid : nat) : nat := (goid mod 16)%nat.

  (** counter.go:11-17, window.go:59-86, one step; [None]: not possible.  The map is walked in any order; Collect is
      assumed to return. *)
  Definition step (s : window) (e : event) : option window :=
    match e with
    | HLock h goid properties =>
      match hs s h, locks s (shardOf goid) with
      | HFresh, None =>
        Some (mkWindow (shards s) (upd (locks s) (shardOf goid) (Some (ByHandle h)))
          (upd (hs s) h (HLocked (shardOf goid) properties)) (xs s))
      | _, _ => None
      end
    | HExtract h d =>
      match hs s h with
      | HLocked i properties =>
        if option_key_eqb (extract indices properties) d then
          match d with
          | Some d => Some (mkWindow (upd (shards s) i (increment (shards s i) d)) (locks s) (upd (hs s) h (HCounted i)) (xs s))
          | None => Some (mkWindow (shards s) (locks s) (upd (hs s) h (HPanicked i)) (xs s))
          end
        else None
      | _ => None
      end
    | HUnlock h =>
      match hs s h with
      | HCounted i => Some (mkWindow (shards s) (upd (locks s) i None) (upd (hs s) h HReturned) (xs s))
      | _ => None
      end
    | XCall x =>
      match xs s x with
      | XFresh => Some (mkWindow (shards s) (locks s) (hs s) (upd (xs s) x (XBefore 0)))
      | _ => None
      end
    | XLock x =>
      match xs s x with
      | XBefore i =>
        match locks s i with
        | None => Some (mkWindow (shards s) (upd (locks s) i (Some (ByExport x))) (hs s) (upd (xs s) x (XIn i (map fst (shards s i)))))
        | Some _ => None
        end
      | _ => None
      end
    | XCollect x p =>
      match xs s x with
      | XIn i keys =>
        if existsb (key_eqb (Dimension p)) keys then
          match get (shards s i) (Dimension p) with
          | Some c =>
            if point_eqb p (mkPoint [] (Dimension p) (float64 c)) then
              Some (mkWindow (upd (shards s) i (set_entry (shards s i) (Dimension p) 0)) (locks s) (hs s)
                (upd (xs s) x (XIn i (remove_key keys (Dimension p)))))
            else None
          | None => None
          end
        else None
      | _ => None
      end
    | XUnlock x =>
      match xs s x with
      | XIn i [] =>
        Some (mkWindow (shards s) (upd (locks s) i None) (hs s)
          (upd (xs s) x (if (S i <? 16)%nat then XBefore (S i) else XReturned)))
      | _ => None
      end
    end.

  (** counter.go:11-17, window.go:59-86, many steps *)
  Fixpoint run (s : window) (evs : list event) : option window :=
    match evs with
    | [] => Some s
    | e :: evs => match step s e with Some s' => run s' evs | None => None end
    end.
End Window.

(** * exportEverySecond *)

(** window.go:41-51: the goroutine is at the select, in Export, or over; the timer has not fired, has put its value in its channel
    (which holds one), or the value was taken.  time.NewTimer makes a timer that fires once (Go library). *)
Inductive timer := NotFired | Fired | Taken.
(** window.go:41-51: where the goroutine is *)
Inductive gpc := GSelect | GExporting | GOver.
Record exporter := mkExporter { etimer : timer; edone : bool; epc : gpc }.
(** window.go:42 *)
Definition newExporter : exporter := mkExporter NotFired false GSelect.

(** The second is over; the select takes the timer's value and Export begins (45-46); Export returns; the context is
    done; the select sees it (47-48). *)
Inductive gevent := TimerFires | ExportBegins | ExportEnds | ContextDone | GReturns.

(** window.go:41-51, one step; [None]: not possible. *)
Definition gstep (s : exporter) (e : gevent) : option exporter :=
  match e with
  | TimerFires => match etimer s with NotFired => Some (mkExporter Fired (edone s) (epc s)) | _ => None end
  | ExportBegins =>
    match epc s, etimer s with GSelect, Fired => Some (mkExporter Taken (edone s) GExporting) | _, _ => None end
  | ExportEnds => match epc s with GExporting => Some (mkExporter (etimer s) (edone s) GSelect) | _ => None end
  | ContextDone => Some (mkExporter (etimer s) true (epc s))
  | GReturns => match epc s, edone s with GSelect, true => Some (mkExporter (etimer s) (edone s) GOver) | _, _ => None end
  end.
(** window.go:41-51, many steps *)
Fixpoint gruns (s : exporter) (evs : list gevent) : option exporter :=
  match evs with
  | [] => Some s
  | e :: evs => match gstep s e with Some s' => gruns s' evs | None => None end
  end.
