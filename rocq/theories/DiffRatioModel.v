(** Model of the similarity ratios of test/go-difflib/difflib/difflib.go: Ratio, QuickRatio and RealQuickRatio, with the cache of the
    counts of lines.  IEEE-754 arithmetic is Flocq's binary64 with rounding to nearest even, as Go's on amd64. *)
From Verif Require Import Base DiffModel JsonFloatModel.
From Flocq Require Import IEEE754.Binary IEEE754.Bits.
Open Scope Z_scope.
Open Scope list_scope.

(** difflib.go:40-45; [float64] of an int rounds to nearest even *)
Definition calculateRatio (matches length : Z) : binary64 :=
  if 0 <? length then b64_div mode_NE (b64_mult mode_NE (f64 2 0) (f64 matches 0)) (f64 length 0)
  else f64 1 0.

(** map[string]int: reading with ok, and writing; difflib.go:484, 493, 497 *)
Fixpoint lookup (m : list (bytes * Z)) (s : bytes) : option Z :=
  match m with
  | [] => None
  | (k, v) :: r => if streq k s then Some v else lookup r s
  end.
(** difflib.go:484, 495: 0 for a missing key *)
Definition getN (m : list (bytes * Z)) (s : bytes) : Z := match lookup m s with Some v => v | None => 0 end.

(** The matcher with fullBCount, difflib.go:95; a nil map is [None] *)
Record rmatcher := mkR { plain : matcher; fullBCount : option (list (bytes * Z)) }.

(** difflib.go:100-112: fullBCount starts as nil *)
Definition newR (m : matcher) : rmatcher := mkR m None.
(** difflib.go:129-136: SetSeq1 leaves fullBCount alone *)
Definition rSetSeq1 (r : rmatcher) (a : list bytes) : rmatcher := mkR (SetSeq1 (plain r) a) (fullBCount r).
(** difflib.go:140-149 *)
Definition rSetSeq2 (r : rmatcher) (b : list bytes) : rmatcher := mkR (SetSeq2 (plain r) b) None.

(** difflib.go:465-471 *)
Definition Ratio (r : rmatcher) : option (rmatcher * binary64) :=
  let? (m, blocks) := GetMatchingBlocks (plain r) in
  let matches := fold_left (fun n b => n + mSize b) blocks 0 in
  Some (mkR m (fullBCount r), calculateRatio matches (lenZ (seqA m) + lenZ (seqB m))).

(** difflib.go:481-486 *)
Fixpoint countLines (b : list bytes) (m : list (bytes * Z)) : list (bytes * Z) :=
  match b with
  | [] => m
  | s :: r => countLines r ((s, getN m s + 1) :: m)
  end.
(** difflib.go:490-501 *)
Fixpoint quickLoop (full avail : list (bytes * Z)) (matches : Z) (a : list bytes) : Z :=
  match a with
  | [] => matches
  | s :: a =>
    let n := match lookup avail s with Some n => n | None => getN full s end in
    quickLoop full ((s, n - 1) :: avail) (if 0 <? n then matches + 1 else matches) a
  end.
(** difflib.go:477-503 *)
Definition QuickRatio (r : rmatcher) : rmatcher * binary64 :=
  let m := plain r in
  let full := match fullBCount r with Some c => c | None => countLines (seqB m) [] end in
  (mkR m (Some full), calculateRatio (quickLoop full [] 0 (seqA m)) (lenZ (seqA m) + lenZ (seqB m))).

(** difflib.go:509-512 *)
Definition RealQuickRatio (r : rmatcher) : binary64 :=
  let la := lenZ (seqA (plain r)) in let lb := lenZ (seqB (plain r)) in
  calculateRatio (Z.min la lb) (la + lb).
