(** Model of countlog/output/writer.go (EventWriter with its buffer pool) and of the event queue of witch/logger.go. *)
From Verif Require Import Base.

(** A Go slice: its array and its length.  Arrays have a fixed size, the capacity of the slices of them that the
    code uses (which all begin at the array's first byte). writer.go:48-75. *)
Definition slice := (nat * nat)%type.

(** writer.go:48-55 with 71-75, where a call of Handle is: not called, with a buffer from the pool, with the formatted
    record, after the inner writer's Write, over. *)
Inductive hpc := HFresh | HGot (s : slice) | HFormatted (s : slice) | HWritten (s : slice) | HOver.

(** The arrays, bufPool (writer.go:62-75), the calls of Handle, the slices that the sink has kept (witch/logger.go:27-28) *)
Record state := mkState {
  arrays : list bytes;
  pool : list slice;
  hs : nat -> hpc;
  kept : list slice
}.

(** What the inner writer does with the slice it is given: the witch event queue sends it to its channel
    (witch/logger.go:27-28); the async writers send a copy (async.go:105, 111). *)
Inductive sink := KeepsSlice | KeepsCopy.

Section Pool.
  Variable inner : sink.

  (** The queue of the sink is empty; the pool too. writer.go:62-65, witch/logger.go:15-24. *)
  Definition init : state := mkState [] [] (fun _ => HFresh) [].

  (** The atomic steps of call h of Handle: it gets a new buffer (writer.go:49, 62-63) or buffer number i of the pool (sync.Pool
      may also drop buffers), formats record [rec] by appending to it (line 50; [cap]: the capacity of the new array if it does
      not fit), writes it to the inner writer (line 72), puts the slice in the pool (line 73).  Read: the reader of
      the log takes the oldest slice the sink kept and sees [rec] (witch/logger.go:44, 52, 79). *)
  Inductive event :=
  | GetNew (h : nat)
  | GetPooled (h i : nat)
  | PoolDrops (i : nat)
  | Format (h : nat) (rec : bytes) (cap : nat)
  | Write (h : nat)
  | Put (h : nat)
  | Read (rec : bytes).

  (** Updates; no counterpart in the source. For the fields of [state] (writer.go:48-75). *)
  Definition upd (f : nat -> hpc) (h : nat) (x : hpc) : nat -> hpc := fun v => if (v =? h)%nat then x else f v.
  (** The same for an array *)
  Fixpoint put (l : list bytes) (a : nat) (x : bytes) : list bytes :=
    match l, a with
    | [], _ => []
    | _ :: l, O => x :: l
    | y :: l, S a => y :: put l a x
    end.
  (** Taking a slice out of bufPool (writer.go:49); sync.Pool gives any of them *)
  Fixpoint remove_nth (l : list slice) (i : nat) : list slice :=
    match l, i with
    | [], _ => []
    | _ :: l, O => l
    | x :: l, S i => x :: remove_nth l i
    end.
  (** Equality of bytes, for the events that carry what witch/logger.go:44, 52 read *)
  Definition bytes_eqb (a b : bytes) : bool := if list_eq_dec Z.eq_dec a b then true else false.

  (** The bytes of a slice *)
  Definition content (arrays : list bytes) (s : slice) : bytes := firstn (snd s) (nth (fst s) arrays []).
  (** writer.go:50: append to the slice (of length 0): in place if the capacity allows, else to a new array *)
  Definition appendTo (arrays : list bytes) (a : nat) (rec : bytes) (cap : nat) : list bytes * slice :=
    let old := nth a arrays [] in
    if (List.length rec <=? List.length old)%nat then
      (put arrays a (rec ++ skipn (List.length rec) old), (a, List.length rec))
    else (arrays ++ [rec ++ repeat 0 cap], (List.length arrays, List.length rec)).

  (** writer.go:48-55, 71-75, witch/logger.go:26-61, one step; [None]: not possible. *)
  Definition step (s : state) (e : event) : option state :=
    match e with
    | GetNew h =>
      match hs s h with
      | HFresh => Some (mkState (arrays s ++ [repeat 0 128]) (pool s) (upd (hs s) h (HGot (List.length (arrays s), 0%nat))) (kept s))
      | _ => None
      end
    | GetPooled h i =>
      match hs s h, nth_error (pool s) i with
      | HFresh, Some (a, _) => Some (mkState (arrays s) (remove_nth (pool s) i) (upd (hs s) h (HGot (a, 0%nat))) (kept s))
      | _, _ => None
      end
    | PoolDrops i => Some (mkState (arrays s) (remove_nth (pool s) i) (hs s) (kept s))
    | Format h rec cap =>
      match hs s h with
      | HGot (a, _) =>
        let '(arrs, formatted) := appendTo (arrays s) a rec cap in
        Some (mkState arrs (pool s) (upd (hs s) h (HFormatted formatted)) (kept s))
      | _ => None
      end
    | Write h =>
      match hs s h with
      | HFormatted buf =>
        match inner with
        | KeepsSlice => Some (mkState (arrays s) (pool s) (upd (hs s) h (HWritten buf)) (kept s ++ [buf]))
        | KeepsCopy =>
          Some (mkState (arrays s ++ [content (arrays s) buf]) (pool s) (upd (hs s) h (HWritten buf)) (kept s ++ [(List.length (arrays s), snd buf)]))
        end
      | _ => None
      end
    | Put h =>
      match hs s h with
      | HWritten buf => Some (mkState (arrays s) (buf :: pool s) (upd (hs s) h HOver) (kept s))
      | _ => None
      end
    | Read rec =>
      match kept s with
      | buf :: rest => if bytes_eqb (content (arrays s) buf) rec then Some (mkState (arrays s) (pool s) (hs s) rest) else None
      | [] => None
      end
    end.

  (** writer.go:48-55, 71-75, witch/logger.go:26-61, many steps *)
  Fixpoint run (s : state) (evs : list event) : option state :=
    match evs with
    | [] => Some s
    | e :: evs => match step s e with Some s' => run s' evs | None => None end
    end.
End Pool.
