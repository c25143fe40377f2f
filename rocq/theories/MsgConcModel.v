(** Model of msgfmt.Sprintf and msgfmt.Fprintf (and Printf, Println, Fprintln, which call fprintf) in several goroutines, which share the cache of formatters
    and the pool of buffers (msgfmt/msgfmt.go:13-80).

    Each access to the cache and to the pool is a step, so is a call of compile and one of Format (they touch nothing that another call writes to: the buffer
    belongs to the call).  A writer may read the bytes at any time during Write.  The values of a call are not changed by others while it runs; calls made by the
    String method of a value are other calls.  Buffers are as in PoolModel. *)
From Verif Require Import Base PoolModel.
From Verif Require ParseModel.
From Verif Require Import MsgfmtModel.

(** A call of Fprintf (msgfmt.go:55-59, 61) or of Sprintf (msgfmt.go:19) *)
Record call := mkCall { toWriter : bool; cformat : bytes; ckv : list value }.

(** Where a call is: msgfmt.go:19-24, 61-80.  The number is that of the array of its buffer *)
Inductive mpc :=
| MFresh
| MGot (c : call) (a : nat)                    (* 72: it has a buffer *)
| MMissed (c : call) (a : nat)                 (* 77: no formatter found *)
| MCompiled (c : call) (a : nat) (f : formatter) (* 78 *)
| MHas (c : call) (a : nat) (f : formatter)    (* 64, 22: it has a formatter *)
| MFormatted (c : call) (b : slice)            (* 65: within Write; 23 *)
| MWrote (c : call) (b : slice)                (* 66: Write has returned *)
| MOver (b : option slice).                    (* 67, 23, or a panic; the slice that was given to the writer *)

(** formatterCache, the arrays, bufPool and the calls: msgfmt.go:13-17, 61-70 *)
Record state := mkState { mcache : cache; marrays : list bytes; mpool : list slice; mcalls : nat -> mpc }.

(** What call [h] does (msgfmt.go:19-24, 61-80): it begins, with buffer number [i] of the pool or a new one; looks for the formatter; compiles; stores; formats, with
    [cap] bytes to spare if a new array is needed; its writer reads [rec]; Write returns, or panics; the buffer is put into the pool; Sprintf returns [rec]; it
    panics.  [Drops]: sync.Pool drops a buffer.  [Late]: a writer that has kept the slice reads it after Write. *)
Inductive event :=
| Begin (h : nat) (c : call) (i : option nat)
| Drops (i : nat)
| Load (h : nat)
| Compile (h : nat)
| Store (h : nat)
| Fmt (h : nat) (cap : nat)
| Reads (h : nat) (rec : bytes)
| WriteReturns (h : nat)
| WritePanics (h : nat)
| PutBack (h : nat)
| Returned (h : nat) (rec : bytes)
| Panicked (h : nat)
| Late (h : nat) (rec : bytes).

(** The state of the calls after a step of one of them; msgfmt.go:19-80 *)
Definition set (f : nat -> mpc) (h : nat) (x : mpc) : nat -> mpc := fun v => if (v =? h)%nat then x else f v.

Section Conc.
  (** As in MsgfmtModel *)
  Variable encoderOf : Z -> option (value -> option bytes).
  Variable timeString : Z -> bytes.
  Variable timeFormat : bytes -> Z -> bytes.
  Variable trimSpace : bytes -> bytes.
  Variable argsText : list value -> bytes.
  Variable panicText : bytes.
  Variable fuel : nat.

  (** No formatters and no buffers: msgfmt.go:13-17, 70 *)
  Definition init : state := mkState [] [] [] (fun _ => MFresh).
  (** msgfmt.go:14-16 and 62; Format(nil) in 22 *)
  Definition newBuf (c : call) : bytes := if toWriter c then repeat 0 128 else [].

  (** msgfmt.go:19-24, 61-80, one step; [None]: not possible *)
  Definition step (s : state) (e : event) : option state :=
    let go h x := Some (mkState (mcache s) (marrays s) (mpool s) (set (mcalls s) h x)) in
    match e with
    | Begin h c None =>
      match mcalls s h with
      | MFresh => Some (mkState (mcache s) (marrays s ++ [newBuf c]) (mpool s) (set (mcalls s) h (MGot c (List.length (marrays s)))))
      | _ => None
      end
    | Begin h c (Some i) =>
      match mcalls s h, toWriter c, nth_error (mpool s) i with
      | MFresh, true, Some (a, _) => Some (mkState (mcache s) (marrays s) (remove_nth (mpool s) i) (set (mcalls s) h (MGot c a)))
      | _, _, _ => None
      end
    | Drops i => Some (mkState (mcache s) (marrays s) (remove_nth (mpool s) i) (mcalls s))
    | Load h =>
      match mcalls s h with
      | MGot c a => match load (mcache s) (cformat c) with Some f => go h (MHas c a f) | None => go h (MMissed c a) end
      | _ => None
      end
    | Compile h =>
      match mcalls s h with
      | MMissed c a => match compile encoderOf trimSpace panicText fuel (cformat c) (ckv c) with ParseModel.Ok f _ => go h (MCompiled c a f) | _ => None end
      | _ => None
      end
    | Store h =>
      match mcalls s h with
      | MCompiled c a f => Some (mkState ((cformat c, f) :: mcache s) (marrays s) (mpool s) (set (mcalls s) h (MHas c a f)))
      | _ => None
      end
    | Fmt h cap =>
      match mcalls s h with
      | MHas c a f =>
        match Format timeString timeFormat argsText f [] (ckv c) with
        | Some text => let '(arrs, b) := appendTo (marrays s) a text cap in Some (mkState (mcache s) arrs (mpool s) (set (mcalls s) h (MFormatted c b)))
        | None => None
        end
      | _ => None
      end
    | Reads h rec =>
      match mcalls s h with
      | MFormatted c b => if toWriter c && PoolModel.bytes_eqb (content (marrays s) b) rec then Some s else None
      | _ => None
      end
    | WriteReturns h => match mcalls s h with MFormatted c b => if toWriter c then go h (MWrote c b) else None | _ => None end
    | WritePanics h => match mcalls s h with MFormatted c b => if toWriter c then go h (MOver (Some b)) else None | _ => None end
    | PutBack h =>
      match mcalls s h with
      | MWrote c b => Some (mkState (mcache s) (marrays s) (b :: mpool s) (set (mcalls s) h (MOver (Some b))))
      | _ => None
      end
    | Returned h rec =>
      match mcalls s h with
      | MFormatted c b => if negb (toWriter c) && PoolModel.bytes_eqb (content (marrays s) b) rec then go h (MOver None) else None
      | _ => None
      end
    | Panicked h =>
      match mcalls s h with
      | MMissed c a => match compile encoderOf trimSpace panicText fuel (cformat c) (ckv c) with ParseModel.Panic => go h (MOver None) | _ => None end
      | MHas c a f => match Format timeString timeFormat argsText f [] (ckv c) with None => go h (MOver None) | Some _ => None end
      | _ => None
      end
    | Late h rec =>
      match mcalls s h with
      | MOver (Some b) => if PoolModel.bytes_eqb (content (marrays s) b) rec then Some s else None
      | _ => None
      end
    end.
  (** msgfmt.go:19-24, 61-80, many steps *)
  Fixpoint run (s : state) (evs : list event) : option state :=
    match evs with
    | [] => Some s
    | e :: evs => match step s e with Some s' => run s' evs | None => None end
    end.
End Conc.
