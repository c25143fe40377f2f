(** Specification of decimal text, independent of any code of the repository:
    what it means for a byte string to be the canonical decimal numeral of an integer. *)
From Verif Require Import Base.

Definition is_digit (c : Z) : bool := (48 <=? c) && (c <=? 57).

(** Value of a digit string, most significant digit first. *)
Fixpoint digits_value_from (acc : Z) (t : bytes) : Z :=
  match t with
  | [] => acc
  | c :: r => digits_value_from (10 * acc + (c - 48)) r
  end.
Definition digits_value (t : bytes) : Z := digits_value_from 0 t.

(** [t] is the canonical text of the natural number [n]: digits only, at least one,
    value [n], no leading zero unless the text is "0". *)
Definition canon_nat (t : bytes) (n : Z) : Prop :=
  t <> [] /\ forallb is_digit t = true /\ digits_value t = n /\
  (hd 0 t = 48 -> t = [48]).

(** [t] is the canonical text of the integer [n]. *)
Definition canon_int (t : bytes) (n : Z) : Prop :=
  (0 <= n /\ canon_nat t n) \/ (n < 0 /\ exists t', t = 45 :: t' /\ canon_nat t' (- n)).
