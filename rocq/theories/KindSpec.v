(** The kinds of package reflect by their names, in the order in which it declares them. *)
From Verif Require Import Base.
Open Scope Z_scope.

Definition kind_names : list bytes :=
  [bs "Invalid"; bs "Bool"; bs "Int"; bs "Int8"; bs "Int16"; bs "Int32"; bs "Int64"; bs "Uint"; bs "Uint8"; bs "Uint16"; bs "Uint32"; bs "Uint64"; bs "Uintptr";
   bs "Float32"; bs "Float64"; bs "Complex64"; bs "Complex128"; bs "Array"; bs "Chan"; bs "Func"; bs "Interface"; bs "Map"; bs "Ptr"; bs "Slice"; bs "String"; bs "Struct"; bs "UnsafePointer"].
(** The kind of that number has that name *)
Definition kind_is (k : Z) (name : bytes) : Prop := 0 <= k /\ nth_error kind_names (Z.to_nat k) = Some name.
Definition kind_among (k : Z) (names : list bytes) : Prop := exists name, In name names /\ kind_is k name.
