(** Model of msgfmt/jsonfmt/encoder_float.go.  IEEE-754 arithmetic is Flocq's binary64/binary32 with
    rounding to nearest even (multiplication and addition rounded separately, as on amd64). *)
From Verif Require Import Base JsonIntModel.
From Flocq Require Import Core.Zaux IEEE754.Binary IEEE754.Bits.
From Flocq Require IEEE754.BinarySingleNaN.
Notation mode_NE := BinarySingleNaN.mode_NE.
Open Scope Z_scope.
Open Scope list_scope.

(** encoder_float.go:10-14 *)
Definition pow10 : list Z := [1; 10; 100; 1000; 10000; 100000; 1000000].

(** Float literals and conversions of exactly representable integers ([float64(exp)], [0x4ffffff]);
    the exponent argument allows [0.5] = 1 * 2^-1. *)
Definition f64 (m e : Z) : binary64 :=
  binary_normalize 53 1024 (eq_refl _) (eq_refl _) mode_NE m e false.
(** The same for encoder_float.go:70-109 *)
Definition f32 (m e : Z) : binary32 :=
  binary_normalize 24 128 (eq_refl _) (eq_refl _) mode_NE m e false.

(** The comparison [a < b] of two floats (false when either is a NaN). encoder_float.go:32, 43-68. *)
Definition lt64 (a b : binary64) : bool :=
  match b64_compare a b with Some Lt => true | _ => false end.
(** encoder_float.go:84-109 *)
Definition lt32 (a b : binary32) : bool :=
  match b32_compare a b with Some Lt => true | _ => false end.

(** [float64(val)] for a float32 [val] *)
Definition f64_of_f32 (x : binary32) : binary64 :=
  match x with
  | B754_finite _ _ s m e _ => binary_normalize 53 1024 (eq_refl _) (eq_refl _) mode_NE (cond_Zopp s (Zpos m)) e s
  | B754_zero _ _ s => B754_zero 53 1024 s
  | B754_infinity _ _ s => B754_infinity 53 1024 s
  | B754_nan _ _ s _ _ => B754_nan 53 1024 s 1 (eq_refl _) (* quiet payload not modelled *)
  end.

(** encoder_float.go:60-62: [for p := precision - 1; p > 0 && fval < pow10[p]; p--].  None: index panic. *)
Fixpoint padZeros (p : nat) (fval : Z) (space : bytes) : option bytes :=
  match p with
  | O => Some space
  | S p' =>
    let? t := nthZ pow10 (Z.of_nat p) in
    if fval <? t then padZeros p' fval (space ++ [48]) else Some space
  end.

(** encoder_float.go:64-66: drop trailing '0's; [space] is given reversed.  None: index panic on an
    empty slice. *)
Fixpoint stripRev (r : bytes) : option bytes :=
  match r with
  | [] => None
  | c :: r' => if c =? 48 then stripRev r' else Some r
  end.

(** encoder_float.go:54-67 (identical to 95-108): the text of [lval] millionths. *)
Definition writeMillionths (space : bytes) (lval : Z) : option bytes :=
  let exp := 1000000 in
  let? space := WriteUint64 space (lval / exp) in
  let fval := lval mod exp in
  if fval =? 0 then Some space
  else
    let space := space ++ [46] in
    let? space := padZeros 5 fval space in
    let? space := WriteUint64 space fval in
    let? r := stripRev (rev space) in
    Some (rev r).

Section Lossy.
  (** strconv.FormatFloat as called by WriteFloat64/WriteFloat32 (encoder_float.go:31-41 and 71-81) is
      outside the repository: any function from the float to its text. *)
  Variable formatFloat64 : binary64 -> bytes.
  Variable formatFloat32 : binary32 -> bytes.

  (** encoder_float.go:43-68.  [uint64(f)] truncates; for negative, NaN or >= 2^64 arguments Go leaves the
      result to the implementation, here the truncation modulo 2^64 (0 for NaN and infinities).  Not
      reachable for values in the fast range. *)
  Definition WriteFloat64Lossy (space : bytes) (val : binary64) : option bytes :=
    let neg := lt64 val (f64 0 0) in
    let space := if neg then space ++ [45] else space in
    let val := if neg then b64_opp val else val in
    if lt64 (f64 0x4ffffff 0) val then Some (space ++ formatFloat64 val)
    else
      let lval := u64 (Btrunc 53 1024 (b64_plus mode_NE (b64_mult mode_NE val (f64 1000000 0)) (f64 1 (-1)))) in
      writeMillionths space lval.

  (** encoder_float.go:84-109.  The constant 0x4ffffff is converted to float32 (giving 0x5000000). *)
  Definition WriteFloat32Lossy (space : bytes) (val : binary32) : option bytes :=
    let neg := lt32 val (f32 0 0) in
    let space := if neg then space ++ [45] else space in
    let val := if neg then b32_opp val else val in
    if lt32 (f32 0x4ffffff 0) val then Some (space ++ formatFloat32 val)
    else
      let lval := u64 (Btrunc 53 1024 (b64_plus mode_NE (b64_mult mode_NE (f64_of_f32 val) (f64 1000000 0)) (f64 1 (-1)))) in
      writeMillionths space lval.
End Lossy.
