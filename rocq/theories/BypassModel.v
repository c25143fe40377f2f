(** Model of test/go-spew/spew/bypass.go: how go-spew gets round the restrictions of reflect.Value, and of the lines of common.go that use it.
    Citations without a directory are to test/go-spew/spew.  Memory: a word for each address.  Words do not overflow here, so uintptr is Z.
    Method values (reflect.Value.Method) are left out: go-spew makes none. *)
From Verif Require Import Base.
Open Scope Z_scope.
Open Scope list_scope.

(** reflect.Type as far as bypass.go looks at it: reflect.PtrTo of a type (bypass.go:128), or a type with a kind (133-143) *)
Inductive ty := TPtr (t : ty) | TKind (kind name : Z).
(** vt.Kind(): bypass.go:133; 22 is reflect.Ptr *)
Definition kindOf (t : ty) : Z := match t with TPtr _ => 22 | TKind k _ => k end.
(** bypass.go:44-46, 60-63 *)
Record vars := { offsetPtr : Z; offsetScalar : Z; offsetFlag : Z; flagKindShift : Z; flagRO : Z; flagIndir : Z }.
(** bypass.go:60 *)
Definition flagKindWidth : Z := 5.
(** The values before init: bypass.go:44-46, 60-63; [W] is ptrSize (34) *)
Definition initial (W : Z) : vars :=
  {| offsetPtr := W; offsetScalar := 0; offsetFlag := W * 2; flagKindShift := flagKindWidth - 1; flagRO := Z.shiftl 1 0; flagIndir := Z.shiftl 1 1 |}.
(** init, bypass.go:66-111.  [size] is unsafe.Sizeof(vv); [vv] the address of reflect.ValueOf(0xf00); 2 is reflect.Int *)
Definition init (W size : Z) (mem : Z -> Z) (vv : Z) : vars :=
  let d := initial W in
  let d := if size =? W * 4 then
    {| offsetPtr := offsetPtr d; offsetScalar := W * 2; offsetFlag := W * 3; flagKindShift := flagKindShift d; flagRO := flagRO d; flagIndir := flagIndir d |} else d in
  let upfv := mem (vv + offsetFlag d) in
  let flagKindMask := Z.shiftl (Z.shiftl 1 flagKindWidth - 1) (flagKindShift d) in
  if negb (Z.shiftr (Z.land upfv flagKindMask) (flagKindShift d) =? 2) then
    let d := {| offsetPtr := offsetPtr d; offsetScalar := offsetScalar d; offsetFlag := offsetFlag d; flagKindShift := 0; flagRO := Z.shiftl 1 5; flagIndir := Z.shiftl 1 6 |} in
    if Z.land upfv (flagIndir d) =? 0 then
      {| offsetPtr := offsetPtr d; offsetScalar := offsetScalar d; offsetFlag := offsetFlag d; flagKindShift := flagKindShift d; flagRO := Z.shiftl 3 5; flagIndir := Z.shiftl 1 7 |}
    else d
  else d.

(** A reflect.Value as package reflect sees it: its type, its word, whether that is the address of the value (flagIndir), whether Addr and Interface are allowed
    (common.go:92, 106, 109) *)
Record rval := { rTy : ty; rWord : Z; rIndir : bool; rAddr : bool; rRO : bool }.
(** reflect.NewAt, bypass.go:146 *)
Definition NewAt (t : ty) (p : Z) : rval := {| rTy := TPtr t; rWord := p; rIndir := false; rAddr := false; rRO := false |}.
(** Value.Elem of a pointer, bypass.go:148-150; None: the zero Value, for a nil pointer, or a panic, for another type *)
Definition Elem (mem : Z -> Z) (v : rval) : option rval :=
  match rTy v with
  | TPtr t => let p := if rIndir v then mem (rWord v) else rWord v in
    if p =? 0 then None else Some {| rTy := t; rWord := p; rIndir := true; rAddr := true; rRO := rRO v |}
  | _ => None
  end.
(** bypass.go:148-150 *)
Fixpoint elems (mem : Z -> Z) (n : nat) (v : rval) : option rval :=
  match n with O => Some v | S n => let? v := Elem mem v in elems mem n v end.
(** Uintptr, Chan, Func, Map, Ptr, UnsafePointer: bypass.go:133-139 *)
Definition referenceKind (k : Z) : bool := (k =? 12) || (k =? 18) || (k =? 19) || (k =? 21) || (k =? 22) || (k =? 26).
(** bypass.go:122-152; [v] is the address of the parameter, [t] what v.Type() gives *)
Definition unsafeReflectValue (d : vars) (mem : Z -> Z) (v : Z) (t : ty) : option rval :=
  let upv := v + offsetPtr d in
  let rvf := mem (v + offsetFlag d) in
  if negb (Z.land rvf (flagIndir d) =? 0) then elems mem 2 (NewAt (TPtr t) upv)
  else
    let upv := if negb (offsetScalar d =? 0) && negb (referenceKind (kindOf t)) then v + offsetScalar d else upv in
    elems mem 1 (NewAt t upv).
(** Value.Addr of an addressable value: common.go:110 *)
Definition Addr (v : rval) : rval := {| rTy := TPtr (rTy v); rWord := rWord v; rIndir := false; rAddr := false; rRO := rRO v |}.
(** The value whose Error or String method is looked for: common.go:92-111.  [v] is what package reflect sees of the value at [p]; unsafeReflectValue is given a
    copy of it.  None: nothing is looked for, or a panic *)
Definition lookedUp (unsafeDisabled disablePointerMethods : bool) (d : vars) (mem : Z -> Z) (p : Z) (v : rval) : option rval :=
  let? v := (if rRO v then (if unsafeDisabled then None else unsafeReflectValue d mem p (rTy v)) else Some v) in
  let? v := (if negb disablePointerMethods && negb unsafeDisabled && negb (rAddr v) then unsafeReflectValue d mem p (rTy v) else Some v) in
  Some (if rAddr v then Addr v else v).
