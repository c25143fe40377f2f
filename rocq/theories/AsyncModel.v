(** Model of countlog/output/async/async.go. *)
From Verif Require Import Base.

(** async.go:73-102, where the goroutine is: in the outer select, writing a buffer it took there, in the select of the
    last second, writing a buffer it took there, over. *)
Inductive gpc := GSelect | GWriting (buf : nat) | GLast | GLastWriting (buf : nat) | GOver.
(** async.go:104-116, where a call of Write is: not called, before the send with its copy of the caller's buffer,
    returned after the send, returned after calling onMessageDropped. *)
Inductive wpc := WFresh | WCopied (caller copy : nat) | WSent | WDropped.
(** What the underlying Write does: no error, an error (loglog.Error is called), a panic (recovered by the executor,
    the goroutine ends). async.go:85-88, 96-99; unbounded_executor.go:51-56. *)
Inductive wresult := WOk | WError | WPanic.

(** Byte slices are buffers in a heap; [callers]: the buffers the callers of Write own (and may change). async.go:13-22. *)
Record writer := mkWriter {
  heap : list bytes;
  callers : list nat;
  queue : list nat;
  g : gpc;
  ws : nat -> wpc;
  cancelled : bool;
  closed : bool
}.

Section Async.
  (** async.go:24-29: IsQueueBlocking, and the capacity of the queue *)
  Variable IsQueueBlocking : bool.
  Variable queueLength : nat.

  (** async.go:51-60, the queue is empty and asyncWrite is started. *)
  Definition new : writer := mkWriter [] [] [] GSelect (fun _ => WFresh) false false.

  (** The atomic steps.  A caller makes or changes a buffer of its own; call number w of Write copies the buffer (line 105,
      111; [rec] is what it holds), sends it (line 105, 111), drops it (line 112-113; [rec] is what onMessageDropped
      sees); the goroutine takes a buffer (95), sees the context done (76), takes a buffer in the last second (84),
      finds the time is up (81), finds nothing left (89), writes the buffer it took (96, 85; [rec] is what the
      underlying writer sees); Close cancels (119); Close returns from StopAndWaitForever and closes the underlying
      writer (119-124). *)
  Inductive event :=
  | Alloc (rec : bytes)
  | Change (buf : nat) (rec : bytes)
  | WCall (w buf : nat) (rec : bytes)
  | WSend (w : nat)
  | WDrop (w : nat) (rec : bytes)
  | GTake
  | GDone
  | GTakeLast
  | GTimer
  | GEmpty
  | GWrite (rec : bytes) (r : wresult)
  | CloseCall
  | CloseEnd.

  (** Updates; no counterpart in the source. For the fields of async.go:13-22. *)
  Definition upd (f : nat -> wpc) (w : nat) (x : wpc) : nat -> wpc := fun v => if (v =? w)%nat then x else f v.
  (** The same for the heap; no counterpart in the source. *)
  Fixpoint put (h : list bytes) (a : nat) (x : bytes) : list bytes :=
    match h, a with
    | [], _ => []
    | _ :: h, O => x :: h
    | y :: h, S a => y :: put h a x
    end.
  (** Equality of byte slices, for the events that carry what async.go:85, 96, 113 pass on. *)
  Definition bytes_eqb (a b : bytes) : bool := if list_eq_dec Z.eq_dec a b then true else false.
  (** Whether a buffer is in a list; no counterpart in the source (async.go:104-116 gets it from the caller). *)
  Definition inb (a : nat) (l : list nat) : bool := existsb (Nat.eqb a) l.

  (** async.go:73-125, one step; [None]: not possible. *)
  Definition step (s : writer) (e : event) : option writer :=
    match e with
    | Alloc rec =>
      Some (mkWriter (heap s ++ [rec]) (List.length (heap s) :: callers s) (queue s) (g s) (ws s) (cancelled s) (closed s))
    | Change buf rec =>
      if inb buf (callers s) then Some (mkWriter (put (heap s) buf rec) (callers s) (queue s) (g s) (ws s) (cancelled s) (closed s)) else None
    | WCall w buf rec =>
      match ws s w, nth_error (heap s) buf with
      | WFresh, Some content =>
        if inb buf (callers s) && bytes_eqb content rec then
          Some (mkWriter (heap s ++ [content]) (callers s) (queue s) (g s) (upd (ws s) w (WCopied buf (List.length (heap s)))) (cancelled s) (closed s))
        else None
      | _, _ => None
      end
    | WSend w =>
      match ws s w with
      | WCopied _ copy =>
        if (List.length (queue s) <? queueLength)%nat then
          Some (mkWriter (heap s) (callers s) (queue s ++ [copy]) (g s) (upd (ws s) w WSent) (cancelled s) (closed s))
        else None
      | _ => None
      end
    | WDrop w rec =>
      match ws s w with
      | WCopied caller _ =>
        if negb IsQueueBlocking && negb (List.length (queue s) <? queueLength)%nat && bytes_eqb (nth caller (heap s) []) rec then
          Some (mkWriter (heap s) (callers s) (queue s) (g s) (upd (ws s) w WDropped) (cancelled s) (closed s))
        else None
      | _ => None
      end
    | GTake =>
      match g s, queue s with
      | GSelect, buf :: rest => Some (mkWriter (heap s) (callers s) rest (GWriting buf) (ws s) (cancelled s) (closed s))
      | _, _ => None
      end
    | GDone =>
      match g s with
      | GSelect => if cancelled s then Some (mkWriter (heap s) (callers s) (queue s) GLast (ws s) (cancelled s) (closed s)) else None
      | _ => None
      end
    | GTakeLast =>
      match g s, queue s with
      | GLast, buf :: rest => Some (mkWriter (heap s) (callers s) rest (GLastWriting buf) (ws s) (cancelled s) (closed s))
      | _, _ => None
      end
    | GTimer =>
      match g s with
      | GLast => Some (mkWriter (heap s) (callers s) (queue s) GOver (ws s) (cancelled s) (closed s))
      | _ => None
      end
    | GEmpty =>
      match g s, queue s with
      | GLast, [] => Some (mkWriter (heap s) (callers s) (queue s) GOver (ws s) (cancelled s) (closed s))
      | _, _ => None
      end
    | GWrite rec r =>
      match g s with
      | GWriting buf =>
        if bytes_eqb (nth buf (heap s) []) rec then
          Some (mkWriter (heap s) (callers s) (queue s) (match r with WPanic => GOver | _ => GSelect end) (ws s) (cancelled s) (closed s))
        else None
      | GLastWriting buf =>
        if bytes_eqb (nth buf (heap s) []) rec then
          Some (mkWriter (heap s) (callers s) (queue s) (match r with WPanic => GOver | _ => GLast end) (ws s) (cancelled s) (closed s))
        else None
      | _ => None
      end
    | CloseCall => Some (mkWriter (heap s) (callers s) (queue s) (g s) (ws s) true (closed s))
    | CloseEnd =>
      match g s with
      | GOver => if cancelled s then Some (mkWriter (heap s) (callers s) (queue s) (g s) (ws s) (cancelled s) true) else None
      | _ => None
      end
    end.

  (** async.go:73-125, many steps *)
  Fixpoint run (s : writer) (evs : list event) : option writer :=
    match evs with
    | [] => Some s
    | e :: evs => match step s e with Some s' => run s' evs | None => None end
    end.
End Async.

(** async.go:37-40: the capacity used *)
Definition queueLengthOf (cfg : Z) : Z := if cfg =? 0 then 1024 else cfg.

(** async.go:43-49, calls of the default onMessageDropped one after the other: the number told by each
    call, if it tells one. *)
Definition defaultDropped (droppedCount : Z) : Z * option Z :=
  let droppedCount := droppedCount + 1 in
  (droppedCount, if droppedCount mod 1000 =? 1 then Some droppedCount else None).
(** async.go:44-49, n calls *)
Fixpoint defaultDrops (droppedCount : Z) (n : nat) : list Z :=
  match n with
  | O => []
  | S n => let '(c, told) := defaultDropped droppedCount in
    match told with Some x => x :: defaultDrops c n | None => defaultDrops c n end
  end.
