(** reflect2/safe_struct.go, safe_field.go, unsafe_struct.go and unsafe_field.go: the fields of struct types, and package reflect's (Go 1.14)
    FieldByName and FieldByNameFunc, on which they rest.  Reading and writing through a field is in ReflModel.v.  Transcription; no proofs. *)
From Verif Require Import Base.
Open Scope list_scope.

(** A field of a struct type as the compiler describes it (reflect's structField, behind unsafe_struct.go:38, 46): name, package path, tag, type, whether it is embedded, offset in its struct *)
Record rfield := RF { r_name : bytes; r_pkg : bytes; r_tag : bytes; r_type : nat; r_embedded : bool; r_offset : Z }.
(** Types (reflect.Type, safe_type.go:8-11): structs, pointers, others *)
Inductive rtype := RStruct (fs : list rfield) | RPtr (t : nat) | ROther.
(** reflect.StructField (embedded at unsafe_field.go:9 and safe_field.go:9) *)
Record sfield := SF { f_name : bytes; f_pkg : bytes; f_tag : bytes; f_type : nat; f_offset : Z; f_index : list nat; f_anonymous : bool }.
(** What a call gives, or the text it panics with (safe_struct.go:10) *)
Inductive out (T : Type) := Gives (x : T) | Panics (msg : bytes).
Arguments Gives {T} x. Arguments Panics {T} msg.

(** s == name (unsafe_struct.go:38) *)
Definition sameName (a b : bytes) : bool := if list_eq_dec Z.eq_dec a b then true else false.

Section Fields.
  (** The types of the program by number (unsafe_type.go:14-23) *)
  Variable types : list rtype.
  (** The type with a number (unsafe_struct.go:13-18) *)
  Definition typeAt (t : nat) : rtype := nth t types ROther.
  (** The fields of a struct type, in order (unsafe_struct.go:46) *)
  Definition fieldsOf (t : nat) : list rfield := match typeAt t with RStruct fs => fs | _ => [] end.
  (** reflect's structType.Field (unsafe_struct.go:46) for a field f, with the given Index *)
  Definition describe (index : list nat) (f : rfield) : sfield := SF (r_name f) (r_pkg f) (r_tag f) (r_type f) (r_offset f) index (r_embedded f).

  (** ** reflect's FieldByNameFunc (unsafe_struct.go:54) *)
  (** The struct type that an embedded field brings in: its type, or what its type points to *)
  Definition embeddedStruct (f : rfield) : option nat :=
    if negb (r_embedded f) then None else
    let n := match typeAt (r_type f) with RPtr t => t | _ => r_type f end in
    match typeAt n with RStruct _ => Some n | _ => None end.
  (** The variables of its loop over one level (unsafe_struct.go:54): visited, nextCount, next, and result if ok *)
  Record scan := Scan { visited : list nat; nextCount : nat -> nat; next : list (nat * list nat); result : option sfield }.
  (** The body of the loop over the fields of a struct (unsafe_struct.go:54) that occurs count times on this level, at the path index; None: the name occurs more than once, return false *)
  Fixpoint scanFields (match_ : bytes -> bool) (count : nat) (index : list nat) (i : nat) (fs : list rfield) (s : scan) : option scan :=
    match fs with
    | [] => Some s
    | f :: r =>
      if match_ (r_name f) then
        if Nat.ltb 1 count || (match result s with Some _ => true | None => false end) then None
        else scanFields match_ count index (S i) r (Scan (visited s) (nextCount s) (next s) (Some (describe (index ++ [i]) f)))
      else
        match result s, embeddedStruct f with
        | None, Some t =>
          if Nat.ltb 0 (nextCount s t)
          then scanFields match_ count index (S i) r (Scan (visited s) (fun x => if Nat.eqb x t then 2%nat else nextCount s x) (next s) (result s))
          else scanFields match_ count index (S i) r
                 (Scan (visited s) (fun x => if Nat.eqb x t then (if Nat.ltb 1 count then 2 else 1)%nat else nextCount s x) (next s ++ [(t, index ++ [i])]) (result s))
        | _, _ => scanFields match_ count index (S i) r s
        end
    end.
  (** The loop over the structs of a level (unsafe_struct.go:54) *)
  Fixpoint scanLevel (match_ : bytes -> bool) (count : nat -> nat) (current : list (nat * list nat)) (s : scan) : option scan :=
    match current with
    | [] => Some s
    | (t, index) :: r =>
      if existsb (Nat.eqb t) (visited s) then scanLevel match_ count r s
      else
        match scanFields match_ (count t) index 0 (fieldsOf t) (Scan (t :: visited s) (nextCount s) (next s) (result s)) with
        | None => None
        | Some s => scanLevel match_ count r s
        end
    end.
  (** The outer loop (unsafe_struct.go:54); None: out of fuel *)
  Fixpoint levels (fuel : nat) (match_ : bytes -> bool) (count : nat -> nat) (todo : list (nat * list nat)) (seen : list nat) : option (option sfield) :=
    match todo with
    | [] => Some None
    | _ =>
      match fuel with
      | O => None
      | S fuel =>
        match scanLevel match_ count todo (Scan seen (fun _ => 0%nat) [] None) with
        | None => Some None
        | Some s => match result s with Some f => Some (Some f) | None => levels fuel match_ (nextCount s) (next s) (visited s) end
        end
      end
    end.
  (** reflect's FieldByNameFunc (unsafe_struct.go:54); there are no more levels than types, as every level visits a new one *)
  Definition fieldByNameFunc (t : nat) (match_ : bytes -> bool) : option (option sfield) :=
    levels (S (S (List.length types))) match_ (fun _ => 0%nat) [(t, [])] [].
  (** The quick check of reflect's FieldByName (unsafe_struct.go:38): the first field with the name, or whether there are embedded ones *)
  Fixpoint quick (name : bytes) (i : nat) (fs : list rfield) (hasEmbeds : bool) : sfield + bool :=
    match fs with
    | [] => inr hasEmbeds
    | f :: r => if sameName (r_name f) name then inl (describe [i] f) else quick name (S i) r (hasEmbeds || r_embedded f)
    end.
  (** reflect's FieldByName (unsafe_struct.go:38, safe_struct.go:8) *)
  Definition fieldByName (t : nat) (name : bytes) : option (option sfield) :=
    match (if sameName name [] then inr false else quick name 0 (fieldsOf t) false) with
    | inl f => Some (Some f)
    | inr false => Some None
    | inr true => fieldByNameFunc t (fun s => sameName s name)
    end.

  (** ** reflect2 *)
  (** reflect.PtrTo (unsafe_field.go:19), String of a type (unsafe_struct.go:56), and Type2 of the configuration (unsafe_field.go:37) *)
  Variable ptrTo : nat -> nat.
  Variable typeString : nat -> bytes.
  Variable T : Type.
  Variable type2 : nat -> T.
  (** safeField (safe_field.go:8-10) and UnsafeStructField (unsafe_field.go:8-13); the rtypes are the types themselves *)
  Inductive field := SafeField (f : sfield) | UnsafeField (structType : nat) (f : sfield) (rtype ptrRType : nat).
  (** unsafe_field.go:15-22 *)
  Definition newUnsafeStructField (structType : nat) (f : sfield) : field := UnsafeField structType f (f_type f) (ptrTo (f_type f)).
  (** unsafe_struct.go:37-43; None: out of fuel; Gives None is the nil interface *)
  Definition UFieldByName (t : nat) (name : bytes) : option (out (option field)) :=
    match fieldByName t name with
    | None => None
    | Some None => Some (Gives None)
    | Some (Some f) => Some (Gives (Some (newUnsafeStructField t f)))
    end.
  (** safe_struct.go:7-13 *)
  Definition SFieldByName (t : nat) (name : bytes) : option (out (option field)) :=
    match fieldByName t name with
    | None => None
    | Some None => Some (Panics (bs "field " ++ name ++ bs " not found"))
    | Some (Some f) => Some (Gives (Some (SafeField f)))
    end.
  (** unsafe_struct.go:45-47; reflect's Field panics for other indices *)
  Definition UField (t i : nat) : out field :=
    match nth_error (fieldsOf t) i with
    | None => Panics (bs "reflect: Field index out of bounds")
    | Some f => Gives (newUnsafeStructField t (describe [i] f))
    end.
  (** unsafe_struct.go:53-59 *)
  Definition UFieldByNameFunc (t : nat) (match_ : bytes -> bool) : option (out field) :=
    match fieldByNameFunc t match_ with
    | None => None
    | Some None => Some (Panics (bs "field match condition not found in " ++ typeString t))
    | Some (Some f) => Some (Gives (newUnsafeStructField t f))
    end.
  (** The embedded reflect.StructField (safe_field.go:9, unsafe_field.go:9) *)
  Definition structField (f : field) : sfield := match f with SafeField f => f | UnsafeField _ f _ _ => f end.
  (** safe_field.go:12-14, unsafe_field.go:24-26 *)
  Definition Offset (f : field) : Z := f_offset (structField f).
  (** safe_field.go:16-18, unsafe_field.go:28-30 *)
  Definition Name (f : field) : bytes := f_name (structField f).
  (** safe_field.go:20-22, unsafe_field.go:32-34 *)
  Definition PkgPath (f : field) : bytes := f_pkg (structField f).
  (** safe_field.go:24-26, unsafe_field.go:36-38 *)
  Definition FieldType (f : field) : out T := match f with SafeField _ => Panics (bs "not implemented") | UnsafeField _ f _ _ => Gives (type2 (f_type f)) end.
  (** safe_field.go:28-30, unsafe_field.go:40-42 *)
  Definition Tag (f : field) : bytes := f_tag (structField f).
  (** safe_field.go:32-34, unsafe_field.go:44-46 *)
  Definition Index (f : field) : list nat := f_index (structField f).
  (** safe_field.go:36-38, unsafe_field.go:48-50 *)
  Definition Anonymous (f : field) : bool := f_anonymous (structField f).
  (** UnsafeGet (safe_field.go:56-58, unsafe_field.go:72-74): the address *)
  Definition UnsafeGet (f : field) (obj : Z) : out Z :=
    match f with SafeField _ => Panics (bs "does not support unsafe operation") | UnsafeField _ f _ _ => Gives (obj + f_offset f)%Z end.
  (** UnsafeSet (safe_field.go:45-47, unsafe_field.go:60-63): what is copied where: the type, the address to write to, the address to read from *)
  Definition UnsafeSet (f : field) (obj value : Z) : out (nat * Z * Z) :=
    match f with SafeField _ => Panics (bs "unsafe operation is not supported") | UnsafeField _ f rtype _ => Gives (rtype, (obj + f_offset f)%Z, value) end.
  (** assertType (unsafe_type.go:77-85): the panic; String of the type of a nil interface is a nil pointer dereference *)
  Definition assertType (where_ : bytes) (expect : nat) (actual : option nat) : option bytes :=
    match actual with
    | Some a => if Nat.eqb expect a then None else Some (where_ ++ bs ": expect " ++ typeString expect ++ bs ", actual " ++ typeString a)
    | None => Some (bs "runtime error: invalid memory address or nil pointer dereference")
    end.
  (** An interface{} argument (unsafe_field.go:52, 65): type and data word; None is nil *)
  Definition iface : Type := option (nat * Z).
  (** Get of the unsafe implementation (unsafe_field.go:65-70): the pointer, with its type *)
  Definition UGet (structType : nat) (f : sfield) (ptrRType : nat) (obj : iface) : out (nat * Z) :=
    match assertType (bs "StructField.GetIndex argument 1") (ptrTo structType) (option_map fst obj), obj with
    | None, Some (_, p) => Gives (ptrRType, (p + f_offset f)%Z)
    | Some msg, _ => Panics msg
    | None, None => Panics []
    end.
  (** Set of the unsafe implementation (unsafe_field.go:52-58): what UnsafeSet copies *)
  Definition USet (structType : nat) (f : sfield) (rtype ptrRType : nat) (obj value : iface) : out (nat * Z * Z) :=
    match assertType (bs "StructField.SetIndex argument 1") (ptrTo structType) (option_map fst obj) with
    | Some msg => Panics msg
    | None =>
      match assertType (bs "StructField.SetIndex argument 2") ptrRType (option_map fst value), obj, value with
      | None, Some (_, p), Some (_, q) => Gives (rtype, (p + f_offset f)%Z, q)
      | Some msg, _, _ => Panics msg
      | _, _, _ => Panics []
      end
    end.
End Fields.
