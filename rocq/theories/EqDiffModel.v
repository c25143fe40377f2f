(** Model of the text with which testify's Equal and EqualValues report a difference: diff and the message around it (test/testify/assert/assertions.go),
    put together from the models of go-spew (SpewModel.v) and difflib (DiffModel.v). *)
From Verif Require Import Base SpewModel.
From Verif Require DiffModel.
Open Scope Z_scope.
Open Scope list_scope.

(** assertions.go:1242-1247 *)
Definition testifyConfig : config :=
  {| Indent := bs " "; MaxDepth := 0; DisableMethods := false; DisablePointerAddresses := true; DisableCapacities := true; ContinueOnMethod := false; SortKeys := true; SpewKeys := false |}.

Section Diff.
  (** As in SpewModel.v *)
  Variable decimal : Z -> bytes.
  Variable quote : bytes -> bytes.
  Variable hexDump : bytes -> bytes.
  Variable method : sval -> option mcall.
  Variable valueEq : sval -> sval -> bool.
  Variable spewKey : sval -> bytes.
  Variable sortBy : (entry -> entry -> bool) -> list entry -> list entry.
  Variable h : heap.
  (** As in DiffModel.v *)
  Variable sprintfOther : bytes -> bytes.
  (** reflect.TypeOf, Type's Kind and Elem (1181-1190): types are numbers; 17 Array, 21 Map, 22 Ptr, 23 Slice, 25 Struct *)
  Variable typeOf : sval -> Z.
  Variable kindOf : Z -> Z.
  Variable elemOf : Z -> Z.
  (** assertions.go:1181-1190 *)
  Definition typeAndKind (v : sval) : Z * Z :=
    let t := typeOf v in
    let k := kindOf t in
    if k =? 22 then (elemOf t, kindOf (elemOf t)) else (t, k).
  (** test/go-spew/spew/config.go:279-283: dump.go's fdump into a buffer *)
  Definition Sdump (fuel : nat) (v : sval) : option (option bytes) := fdump decimal quote hexDump method valueEq spewKey sortBy testifyConfig h fuel [Some v] [].
  (** assertions.go:1213-1221; [None]: a panic *)
  Definition unified (e a : bytes) : option bytes :=
    DiffModel.GetUnifiedDiffString decimal sprintfOther (DiffModel.mkDiff (DiffModel.SplitLines e) (bs "Expected") [] (DiffModel.SplitLines a) (bs "Actual") [] [] 1).
  (** assertions.go:1194-1224; None: it does not end, Some None: a panic *)
  Definition diff (fuel : nat) (expected actual : option sval) : option (option bytes) :=
    match expected, actual with
    | Some expected, Some actual =>
      let (et, ek) := typeAndKind expected in
      let (at_, _) := typeAndKind actual in
      if negb (et =? at_) then Some (Some []) else
      if negb (ek =? 25) && negb (ek =? 21) && negb (ek =? 23) && negb (ek =? 17) then Some (Some []) else
      match Sdump fuel expected with
      | Some (Some e) =>
        match Sdump fuel actual with
        | Some (Some a) => Some (match unified e a with Some d => Some ([10; 10] ++ bs "Diff:" ++ [10] ++ d) | None => None end)
        | r => r
        end
      | r => r
      end
    | _, _ => Some (Some [])
    end.
  (** formatUnequalValues (assertions.go:328-336): the texts of %#v, with %T if the types differ *)
  Variable shown : option sval -> bytes.
  (** assertions.go:310-316, 344-350: the message when the values are not equal *)
  Definition unequalMessage (fuel : nat) (expected actual : option sval) : option (option bytes) :=
    match diff fuel expected actual with
    | Some (Some d) => Some (Some (bs "Not equal: " ++ [10] ++ bs "expected: " ++ shown expected ++ [10] ++ bs "actual  : " ++ shown actual ++ d))
    | r => r
    end.
End Diff.
