(** Model of which interfaces the Types of package reflect2 have, so which type assertions on them succeed.  Citations without a directory are to reflect2.
    Method sets are computed by Go's rule for embedding: the methods a type declares itself, then those of the type it embeds.  All structs here embed one type. *)
From Verif Require Import Base RTypeModel.
From Coq Require Import String.
Open Scope Z_scope.
Open Scope list_scope.
Open Scope string_scope.

(** A method: its name, its parameters and results (reflect2.go:9-117) *)
Definition meth := (string * string)%type.
(** The methods of reflect.Type (Go 1.9), which safeType embeds: safe_type.go:9 *)
Definition reflectType : list meth :=
  [("Align", "() int"); ("FieldAlign", "() int"); ("Method", "(int) reflect.Method"); ("MethodByName", "(string) (reflect.Method, bool)"); ("NumMethod", "() int");
   ("Name", "() string"); ("PkgPath", "() string"); ("Size", "() uintptr"); ("String", "() string"); ("Kind", "() reflect.Kind"); ("Implements", "(reflect.Type) bool");
   ("AssignableTo", "(reflect.Type) bool"); ("ConvertibleTo", "(reflect.Type) bool"); ("Comparable", "() bool"); ("Bits", "() int"); ("ChanDir", "() reflect.ChanDir");
   ("IsVariadic", "() bool"); ("Elem", "() reflect.Type"); ("Field", "(int) reflect.StructField"); ("FieldByIndex", "([]int) reflect.StructField");
   ("FieldByName", "(string) (reflect.StructField, bool)"); ("FieldByNameFunc", "(func(string) bool) (reflect.StructField, bool)"); ("In", "(int) reflect.Type");
   ("Key", "() reflect.Type"); ("Len", "() int"); ("NumField", "() int"); ("NumIn", "() int"); ("NumOut", "() int"); ("Out", "(int) reflect.Type")].
(** safe_type.go:13-78 *)
Definition ownSafeType : list meth :=
  [("New", "() interface{}"); ("UnsafeNew", "() unsafe.Pointer"); ("Elem", "() Type"); ("Type1", "() reflect.Type");
   ("PackEFace", "(unsafe.Pointer) interface{}"); ("Implements", "(Type) bool"); ("RType", "() uintptr"); ("Indirect", "(interface{}) interface{}");
   ("UnsafeIndirect", "(unsafe.Pointer) interface{}"); ("LikePtr", "() bool"); ("IsNullable", "() bool"); ("IsNil", "(interface{}) bool");
   ("UnsafeIsNil", "(unsafe.Pointer) bool"); ("Set", "(interface{}, interface{})"); ("UnsafeSet", "(unsafe.Pointer, unsafe.Pointer)");
   ("AssignableTo", "(Type) bool")].
(** safe_struct.go:7-13 *)
Definition ownSafeStructType : list meth :=
  [("FieldByName", "(string) StructField")].
(** safe_slice.go:12-92 *)
Definition ownSafeSliceType : list meth :=
  [("SetIndex", "(interface{}, int, interface{})"); ("UnsafeSetIndex", "(unsafe.Pointer, int, unsafe.Pointer)"); ("GetIndex", "(interface{}, int) interface{}");
   ("UnsafeGetIndex", "(unsafe.Pointer, int) unsafe.Pointer"); ("MakeSlice", "(int, int) interface{}"); ("UnsafeMakeSlice", "(int, int) unsafe.Pointer");
   ("Grow", "(interface{}, int)"); ("UnsafeGrow", "(unsafe.Pointer, int)"); ("Append", "(interface{}, interface{})");
   ("UnsafeAppend", "(unsafe.Pointer, unsafe.Pointer)"); ("SetNil", "(interface{})"); ("UnsafeSetNil", "(unsafe.Pointer)"); ("LengthOf", "(interface{}) int");
   ("UnsafeLengthOf", "(unsafe.Pointer) int"); ("Cap", "(interface{}) int"); ("UnsafeCap", "(unsafe.Pointer) int")].
(** safe_map.go:12-76 *)
Definition ownSafeMapType : list meth :=
  [("Key", "() Type"); ("MakeMap", "(int) interface{}"); ("UnsafeMakeMap", "(int) unsafe.Pointer"); ("SetIndex", "(interface{}, interface{}, interface{})");
   ("UnsafeSetIndex", "(unsafe.Pointer, unsafe.Pointer, unsafe.Pointer)"); ("TryGetIndex", "(interface{}, interface{}) (interface{}, bool)");
   ("GetIndex", "(interface{}, interface{}) interface{}"); ("UnsafeGetIndex", "(unsafe.Pointer, unsafe.Pointer) unsafe.Pointer");
   ("Iterate", "(interface{}) MapIterator"); ("UnsafeIterate", "(unsafe.Pointer) MapIterator")].
(** unsafe_type.go:25-85 *)
Definition ownUnsafeType : list meth :=
  [("Set", "(interface{}, interface{})"); ("UnsafeSet", "(unsafe.Pointer, unsafe.Pointer)"); ("IsNil", "(interface{}) bool");
   ("UnsafeIsNil", "(unsafe.Pointer) bool"); ("UnsafeNew", "() unsafe.Pointer"); ("New", "() interface{}"); ("PackEFace", "(unsafe.Pointer) interface{}");
   ("RType", "() uintptr"); ("Indirect", "(interface{}) interface{}"); ("UnsafeIndirect", "(unsafe.Pointer) interface{}"); ("LikePtr", "() bool")].
(** unsafe_struct.go:20-59 *)
Definition ownUnsafeStructType : list meth :=
  [("LikePtr", "() bool"); ("Indirect", "(interface{}) interface{}"); ("UnsafeIndirect", "(unsafe.Pointer) interface{}");
   ("FieldByName", "(string) StructField"); ("Field", "(int) StructField"); ("FieldByIndex", "([]int) StructField");
   ("FieldByNameFunc", "(func(string) bool) StructField")].
(** unsafe_array.go:26-65 *)
Definition ownUnsafeArrayType : list meth :=
  [("LikePtr", "() bool"); ("Indirect", "(interface{}) interface{}"); ("UnsafeIndirect", "(unsafe.Pointer) interface{}");
   ("SetIndex", "(interface{}, int, interface{})"); ("UnsafeSetIndex", "(unsafe.Pointer, int, unsafe.Pointer)");
   ("GetIndex", "(interface{}, int) interface{}"); ("UnsafeGetIndex", "(unsafe.Pointer, int) unsafe.Pointer")].
(** unsafe_slice.go:32-177 *)
Definition ownUnsafeSliceType : list meth :=
  [("Set", "(interface{}, interface{})"); ("UnsafeSet", "(unsafe.Pointer, unsafe.Pointer)"); ("IsNil", "(interface{}) bool");
   ("UnsafeIsNil", "(unsafe.Pointer) bool"); ("SetNil", "(interface{})"); ("UnsafeSetNil", "(unsafe.Pointer)"); ("MakeSlice", "(int, int) interface{}");
   ("UnsafeMakeSlice", "(int, int) unsafe.Pointer"); ("LengthOf", "(interface{}) int"); ("UnsafeLengthOf", "(unsafe.Pointer) int");
   ("SetIndex", "(interface{}, int, interface{})"); ("UnsafeSetIndex", "(unsafe.Pointer, int, unsafe.Pointer)");
   ("GetIndex", "(interface{}, int) interface{}"); ("UnsafeGetIndex", "(unsafe.Pointer, int) unsafe.Pointer"); ("Append", "(interface{}, interface{})");
   ("UnsafeAppend", "(unsafe.Pointer, unsafe.Pointer)"); ("Cap", "(interface{}) int"); ("UnsafeCap", "(unsafe.Pointer) int"); ("Grow", "(interface{}, int)");
   ("UnsafeGrow", "(unsafe.Pointer, int)")].
(** unsafe_map.go:22-138 *)
Definition ownUnsafeMapType : list meth :=
  [("IsNil", "(interface{}) bool"); ("UnsafeIsNil", "(unsafe.Pointer) bool"); ("LikePtr", "() bool"); ("Indirect", "(interface{}) interface{}");
   ("UnsafeIndirect", "(unsafe.Pointer) interface{}"); ("Key", "() Type"); ("MakeMap", "(int) interface{}"); ("UnsafeMakeMap", "(int) unsafe.Pointer");
   ("SetIndex", "(interface{}, interface{}, interface{})"); ("UnsafeSetIndex", "(unsafe.Pointer, unsafe.Pointer, unsafe.Pointer)");
   ("TryGetIndex", "(interface{}, interface{}) (interface{}, bool)"); ("GetIndex", "(interface{}, interface{}) interface{}");
   ("UnsafeGetIndex", "(unsafe.Pointer, unsafe.Pointer) unsafe.Pointer"); ("Iterate", "(interface{}) MapIterator");
   ("UnsafeIterate", "(unsafe.Pointer) MapIterator")].
(** unsafe_ptr.go:18-46 *)
Definition ownUnsafePtrType : list meth :=
  [("IsNil", "(interface{}) bool"); ("UnsafeIsNil", "(unsafe.Pointer) bool"); ("LikePtr", "() bool"); ("Indirect", "(interface{}) interface{}");
   ("UnsafeIndirect", "(unsafe.Pointer) interface{}")].
(** unsafe_eface.go:35-59 *)
Definition ownUnsafeEFaceType : list meth :=
  [("IsNil", "(interface{}) bool"); ("UnsafeIsNil", "(unsafe.Pointer) bool"); ("Indirect", "(interface{}) interface{}");
   ("UnsafeIndirect", "(unsafe.Pointer) interface{}")].
(** unsafe_iface.go:36-64 *)
Definition ownUnsafeIFaceType : list meth :=
  [("Indirect", "(interface{}) interface{}"); ("UnsafeIndirect", "(unsafe.Pointer) interface{}"); ("IsNil", "(interface{}) bool");
   ("UnsafeIsNil", "(unsafe.Pointer) bool")].
(** What a Type declares itself and what it embeds, outermost first: safe_type.go:8-11, safe_struct.go:3-5, safe_slice.go:8-10, safe_map.go:8-10, unsafe_type.go:8-12,
    unsafe_struct.go:8-11, unsafe_array.go:8-14, unsafe_slice.go:15-20, unsafe_map.go:8-12, unsafe_ptr.go:8-10, unsafe_eface.go:25-27, unsafe_iface.go:26-28 *)
Definition levels (i : impl) : list (list meth) :=
  let s := [ownSafeType; reflectType] in
  let u := ownUnsafeType :: s in
  match i with
  | SafeType => s | SafeStruct => ownSafeStructType :: s | SafeSlice => ownSafeSliceType :: s | SafeMap => ownSafeMapType :: s
  | UType => u | UStruct => ownUnsafeStructType :: u | UArray => ownUnsafeArrayType :: u | USlice => ownUnsafeSliceType :: u | UMap => ownUnsafeMapType :: u
  | UPtr => ownUnsafePtrType :: u | UEFace => ownUnsafeEFaceType :: u | UIFace => ownUnsafeIFaceType :: u
  end.
(** The method of a name, at the least depth: reflect2.go:212 *)
Fixpoint declared (n : string) (l : list meth) : option string := match l with [] => None | (m, s) :: l => if String.eqb n m then Some s else declared n l end.
(** reflect2.go:212 *)
Fixpoint methodOf (n : string) (ll : list (list meth)) : option string :=
  match ll with [] => None | l :: ll => match declared n l with Some s => Some s | None => methodOf n ll end end.
(** The interfaces: reflect2.go:9-117 *)
Inductive iface := IType | IList | IArray | ISlice | IStruct | IMap | IPtr | IInterface.
(** reflect2.go:9-34 *)
Definition typeMethods : list meth :=
  [("Kind", "() reflect.Kind"); ("New", "() interface{}"); ("UnsafeNew", "() unsafe.Pointer"); ("PackEFace", "(unsafe.Pointer) interface{}");
   ("Indirect", "(interface{}) interface{}"); ("UnsafeIndirect", "(unsafe.Pointer) interface{}"); ("Type1", "() reflect.Type"); ("Implements", "(Type) bool");
   ("String", "() string"); ("RType", "() uintptr"); ("LikePtr", "() bool"); ("IsNullable", "() bool"); ("IsNil", "(interface{}) bool");
   ("UnsafeIsNil", "(unsafe.Pointer) bool"); ("Set", "(interface{}, interface{})"); ("UnsafeSet", "(unsafe.Pointer, unsafe.Pointer)");
   ("AssignableTo", "(Type) bool")].
(** reflect2.go:36-43 *)
Definition listMethods : list meth :=
  typeMethods ++ [("Elem", "() Type"); ("SetIndex", "(interface{}, int, interface{})"); ("UnsafeSetIndex", "(unsafe.Pointer, int, unsafe.Pointer)");
   ("GetIndex", "(interface{}, int) interface{}"); ("UnsafeGetIndex", "(unsafe.Pointer, int) unsafe.Pointer")].
(** reflect2.go:45-48 *)
Definition arrayMethods : list meth :=
  listMethods ++ [("Len", "() int")].
(** reflect2.go:50-64 *)
Definition sliceMethods : list meth :=
  listMethods ++ [("MakeSlice", "(int, int) interface{}"); ("UnsafeMakeSlice", "(int, int) unsafe.Pointer"); ("Grow", "(interface{}, int)");
   ("UnsafeGrow", "(unsafe.Pointer, int)"); ("Append", "(interface{}, interface{})"); ("UnsafeAppend", "(unsafe.Pointer, unsafe.Pointer)");
   ("LengthOf", "(interface{}) int"); ("UnsafeLengthOf", "(unsafe.Pointer) int"); ("SetNil", "(interface{})"); ("UnsafeSetNil", "(unsafe.Pointer)");
   ("Cap", "(interface{}) int"); ("UnsafeCap", "(unsafe.Pointer) int")].
(** reflect2.go:66-73 *)
Definition structMethods : list meth :=
  typeMethods ++ [("NumField", "() int"); ("Field", "(int) StructField"); ("FieldByName", "(string) StructField"); ("FieldByIndex", "([]int) StructField");
   ("FieldByNameFunc", "(func(string) bool) StructField")].
(** reflect2.go:89-102 *)
Definition mapMethods : list meth :=
  typeMethods ++ [("Key", "() Type"); ("Elem", "() Type"); ("MakeMap", "(int) interface{}"); ("UnsafeMakeMap", "(int) unsafe.Pointer");
   ("SetIndex", "(interface{}, interface{}, interface{})"); ("UnsafeSetIndex", "(unsafe.Pointer, unsafe.Pointer, unsafe.Pointer)");
   ("TryGetIndex", "(interface{}, interface{}) (interface{}, bool)"); ("GetIndex", "(interface{}, interface{}) interface{}");
   ("UnsafeGetIndex", "(unsafe.Pointer, unsafe.Pointer) unsafe.Pointer"); ("Iterate", "(interface{}) MapIterator");
   ("UnsafeIterate", "(unsafe.Pointer) MapIterator")].
(** reflect2.go:110-113 *)
Definition ptrMethods : list meth :=
  typeMethods ++ [("Elem", "() Type")].
(** reflect2.go:115-117 *)
Definition interfaceMethods : list meth :=
  [("NumMethod", "() int")].
(** The methods an interface asks for: reflect2.go:9-117 *)
Definition asks (i : iface) : list meth :=
  match i with IType => typeMethods | IList => listMethods | IArray => arrayMethods | ISlice => sliceMethods | IStruct => structMethods | IMap => mapMethods | IPtr => ptrMethods | IInterface => interfaceMethods end.
(** Whether a type assertion to an interface succeeds: each of its methods is there, with the same parameters and results (reflect2.go:212, msgfmt/jsonfmt/encoder.go:149-170) *)
Definition implements (t : impl) (i : iface) : bool :=
  forallb (fun m => match methodOf (fst m) (levels t) with Some s => String.eqb s (snd m) | None => false end) (asks i).
(** A type assertion: None is a panic; reflect2.go:212 *)
Definition assert (r : res) (i : iface) : option obj := match r with RType o => if implements (oImpl o) i then Some o else None | _ => None end.
(** reflect2.go:211-213 *)
Definition TypeOfPtr (kind numMethod : Z -> Z) (s : st) (t : Z) : option obj := assert (snd (TypeOf kind numMethod false s t)) IPtr.
