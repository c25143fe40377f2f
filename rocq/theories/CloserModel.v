(** Model of closer.go: MergeErrors, Close, CloseAll, WrapCloser. *)
From Verif Require Import Base.

(** What a call of Close does: it returns nil, returns error number e, or panics. closer.go:30, 44, io.Closer. *)
Inductive result := Closed | Failed (e : Z) | Panicked.

(** The properties of a log event: the caller's, the key "err", an error. closer.go:34, 48. *)
Inductive property := PUser (p : Z) | PKey (k : bytes) | PError (e : Z).

(** What happens outside, in order: a resource is closed with some result, an event is logged at level Error or
    Debug. closer.go:30, 35, 44, 49, 56. *)
Inductive effect :=
| EClose (r : Z) (res : result)
| EError (event : bytes) (props : list property)
| EDebug (event : bytes) (props : list property).

(** closer.go:16-27.  [None]: nil; [Some l]: MultiError(l). *)
Fixpoint nonNil (errs : list (option Z)) (acc : list Z) : list Z :=
  match errs with
  | [] => acc
  | Some e :: errs => nonNil errs (acc ++ [e])
  | None :: errs => nonNil errs acc
  end.
(** closer.go:16-27 *)
Definition MergeErrors (errs : list (option Z)) : option (list Z) :=
  let nonNilErrs := nonNil errs [] in
  match nonNilErrs with [] => None | _ => Some nonNilErrs end.

Section Closer.
  (** What Close of a resource does after everything that happened so far; whether logging an event then panics;
      the text file:line of the caller. *)
  Variable close : list effect -> Z -> result.
  Variable logPanics : list effect -> bool.
  Variable closedAt : bytes.

  (** countlog.Error / countlog.Debug seen from here: one more effect; [None]: panic; closer.go:35, 49, 56 *)
  Definition log (trace : list effect) (e : effect) : list effect * option unit :=
    (trace ++ [e], if logPanics trace then None else Some tt).

  (** closer.go:29-39.  Outer [None] of the result: panic; inner: the error returned. *)
  Definition Close (resource : Z) (properties : list property) : list effect * option (option Z) :=
    let err := close [] resource in
    let trace := [EClose resource err] in
    match err with
    | Panicked => (trace, None)
    | Closed => (trace, Some None)
    | Failed e =>
      match log trace (EError (bs "event!close " ++ closedAt) (properties ++ [PKey (bs "err"); PError e])) with
      | (trace, None) => (trace, None)
      | (trace, Some tt) => (trace, Some (Some e))
      end
    end.

  (** closer.go:43-52 *)
  Fixpoint closeLoop (trace : list effect) (resources : list Z) (properties : list property) (errs : list Z)
    : list effect * option (list property * list Z) :=
    match resources with
    | [] => (trace, Some (properties, errs))
    | resource :: rest =>
      let err := close trace resource in
      let trace := trace ++ [EClose resource err] in
      match err with
      | Panicked => (trace, None)
      | Closed => closeLoop trace rest properties errs
      | Failed e =>
        let properties := properties ++ [PKey (bs "err"); PError e] in
        match log trace (EError (bs "event!CloseAll called from " ++ closedAt) properties) with
        | (trace, None) => (trace, None)
        | (trace, Some tt) => closeLoop trace rest properties (errs ++ [e])
        end
      end
    end.

  (** closer.go:41-59.  Outer [None] of the result: panic; inner: nil. *)
  Definition CloseAll (resources : list Z) (properties : list property) : list effect * option (option (list Z)) :=
    match closeLoop [] resources properties [] with
    | (trace, None) => (trace, None)
    | (trace, Some (properties, errs)) =>
      match (match errs, properties with
             | [], _ :: _ => log trace (EDebug (bs "event!CloseAll called from " ++ closedAt) properties)
             | _, _ => (trace, Some tt)
             end) with
      | (trace, None) => (trace, None)
      | (trace, Some tt) => (trace, Some (MergeErrors (map Some errs)))
      end
    end.
End Closer.

(** closer.go:61-71: Close of WrapCloser(f) is f. *)
Definition WrapCloser (f : list effect -> result) (resource : Z) (others : list effect -> Z -> result) : list effect -> Z -> result :=
  fun trace r => if r =? resource then f trace else others trace r.
