(** Specification of similarity: what the ratios measure. *)
From Coq Require Import Reals.
From Verif Require Import Base DiffModel DiffSpec DiffRatioModel.
From Flocq Require Import Core IEEE754.Binary IEEE754.Bits.
Open Scope Z_scope.
Open Scope list_scope.

(** The value of a float; Go's <= (false if one is a NaN) *)
Definition value (x : binary64) : R := B2R 53 1024 x.
Definition le64 (x y : binary64) : bool := match b64_compare x y with Some Lt | Some Eq => true | _ => false end.

(** The float nearest to a real number (of two, the even one) *)
Definition nearest (x : R) : R := round radix2 (FLT_exp (3 - 1024 - 53) 53) ZnearestE x.

(** x is the ratio for m matches in sequences of length la and lb: twice m by the sum of the lengths, 1 for empty sequences *)
Definition measures (x : binary64) (m la lb : Z) : Prop :=
  is_finite 53 1024 x = true /\ value x = (if la + lb =? 0 then 1 else nearest (IZR (2 * m) / IZR (la + lb)))%R.

(** c is what a and b have in common as multisets *)
Definition shared (a b c : list bytes) : Prop := forall s, occurrences s c = Z.min (occurrences s a) (occurrences s b).

(** Everything a caller can do with a matcher *)
Inductive rcall := RCall (c : call) | RRatio | RQuickRatio.
Definition rperform (r : rmatcher) (c : rcall) : option rmatcher :=
  match c with
  | RCall (CSetSeq1 a) => Some (rSetSeq1 r a)
  | RCall (CSetSeq2 b) => Some (rSetSeq2 r b)
  | RCall (CSetSeqs a b) => Some (rSetSeq2 (rSetSeq1 r a) b)
  | RCall c => let? m := perform (plain r) c in Some (mkR m (fullBCount r))
  | RRatio => let? (r, _) := Ratio r in Some r
  | RQuickRatio => Some (fst (QuickRatio r))
  end.
Fixpoint rperforms (r : rmatcher) (l : list rcall) : option rmatcher :=
  match l with [] => Some r | c :: l => let? r := rperform r c in rperforms r l end.
(** The sequences set last *)
Definition rcurrent (a b : list bytes) (l : list rcall) : list bytes * list bytes :=
  current a b (flat_map (fun c => match c with RCall c => [c] | _ => [] end) l).
