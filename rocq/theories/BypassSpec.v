(** The layouts reflect.Value has had, and what a Value in such a layout stands for *)
From Verif Require Import Base BypassModel.
Open Scope Z_scope.

(** The places of the flags: kind above four flags; kind below, one read-only flag; kind below, two read-only flags *)
Inductive flags := Old | Mid | New.
(** With a word for scalars or without; the flags *)
Record layout := { scalarWord : bool; flagsAt : flags }.
Definition indirBit (f : flags) : Z := match f with Old => 1 | Mid => 6 | New => 7 end.
Definition addrBit (f : flags) : Z := match f with Old => 2 | Mid => 7 | New => 8 end.
Definition readOnly (f : flags) (x : Z) : bool :=
  match f with Old => Z.testbit x 0 | Mid => Z.testbit x 5 | New => Z.testbit x 5 || Z.testbit x 6 end.
(** The flag word of reflect.ValueOf of an int; [indirect]: whether its word is an address *)
Definition intFlags (f : flags) (indirect : bool) : Z :=
  match f with Old => 2 * 2 ^ 4 | _ => 2 end + (if indirect then 2 ^ indirBit f else 0).
Definition sizeOf (L : layout) (W : Z) : Z := if scalarWord L then 4 * W else 3 * W.
Definition flagAddress (L : layout) (W p : Z) : Z := p + (if scalarWord L then 3 * W else 2 * W).
(** What package reflect sees of the Value at [p]; [inScalar t]: package reflect keeps values of type [t] that are not indirect in the scalar word *)
Definition sees (L : layout) (inScalar : ty -> bool) (W : Z) (mem : Z -> Z) (p : Z) (v : rval) : Prop :=
  let f := mem (flagAddress L W p) in
  rIndir v = Z.testbit f (indirBit (flagsAt L)) /\ rAddr v = Z.testbit f (addrBit (flagsAt L)) /\ rRO v = readOnly (flagsAt L) f /\
  rWord v = (if scalarWord L && negb (rIndir v) && inScalar (rTy v) then mem (p + 2 * W) else mem (p + W)) /\
  (rIndir v = true -> rWord v <> 0) /\ (rAddr v = true -> rIndir v = true).
(** The variables say what the layout is *)
Definition describes (d : vars) (L : layout) (W : Z) : Prop :=
  offsetPtr d = W /\ offsetFlag d = (if scalarWord L then 3 * W else 2 * W) /\ offsetScalar d = (if scalarWord L then 2 * W else 0) /\ flagIndir d = 2 ^ indirBit (flagsAt L) /\
  (forall x, (Z.land x (flagRO d) =? 0) = negb (readOnly (flagsAt L) x)) /\ flagKindShift d = (match flagsAt L with Old => 4 | _ => 0 end).
(** [w] is the value that [v] is: the same place, or a copy of its word *)
Definition same (mem : Z -> Z) (v w : rval) : Prop :=
  rTy w = rTy v /\ rIndir w = true /\ if rIndir v then rWord w = rWord v else mem (rWord w) = rWord v.
(** The types that bypass.go does not look for in the word for scalars: pointers and the kinds Uintptr, Chan, Func, Map, Ptr, UnsafePointer *)
Definition pointerLike (t : ty) : Prop := match t with TPtr _ => True | TKind k _ => In k [12; 18; 19; 21; 22; 26] end.
