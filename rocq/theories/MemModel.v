(** Model of how jsonfmt and reflect2 reach values: through unsafe pointers into memory.  The encoders of msgfmt/jsonfmt (encoder.go,
    encoder_*.go) read memory here, where JsonCompModel.v gives them values; of reflect2: what interfaces look like in memory
    (unsafe_eface.go, unsafe_iface.go), which types are like pointers (reflect2.go:246-270), UnsafeIndirect of every kind of type,
    the addresses of fields and elements (unsafe_field.go, unsafe_array.go, unsafe_slice.go, unsafe_link.go), and the iteration of maps.
    Simplifications: a word is 8 bytes; memory holds scalars and not single bytes, so an access of another type than was stored is
    [Outside]; the caches of encoders and of types are left out, as they give what would be built again. *)
From Verif Require Import Base JsonIntModel JsonStrModel JsonFloatModel JsonCompModel.
From Flocq Require Import IEEE754.Bits.
Open Scope Z_scope.
Open Scope list_scope.

(** * Memory (Go's, not in /repo) *)

(** An address: a block (a variable, an array, the header of a map) and an offset in bytes *)
Definition ptr := (nat * Z)%type.
(** What is stored at an address.  [CPtr]: a pointer, map, channel, function or unsafe.Pointer; [CType]: a pointer to a type descriptor,
    the first word of an interface{} (unsafe_eface.go:8-11); [CItab]: a pointer to an itab with the type in it, the first word of other
    interfaces (unsafe_iface.go:8-16) *)
Inductive cell :=
| CBool (b : bool) | CInt (k : intkind) (z : Z) | CF64 (f : binary64) | CF32 (f : binary32)
| CPtr (p : option ptr) | CType (t : option nat) | CItab (t : option nat).
(** [maps]: the pairs of a map in the order of iteration (unsafe_link.go:28-36), as pointers; [next]: a block that is not in use *)
Record mem := mkM { cells : nat -> Z -> option cell; maps : nat -> option (list (ptr * ptr)); next : nat }.
(** A new variable, such as the parameter of encoder.go:212 *)
Definition slot (m : mem) : ptr := (next m, 0).
(** ... with what it holds: encoder.go:212 *)
Definition alloc (m : mem) (c : cell) : mem :=
  mkM (fun b o => if Nat.eqb b (next m) then (if o =? 0 then Some c else None) else cells m b o) (maps m) (S (next m)).

(** How an Encode or a method of reflect2 ends.  [Panics]: also for a nil dereference; [Outside]: memory that does not hold such a value is
    read, with any consequence; [NoFuel]: more nested calls than [fuel] *)
Inductive outcome (T : Type) := Done (x : T) | Panics | Outside | NoFuel.
Arguments Done {T} x. Arguments Panics {T}. Arguments Outside {T}. Arguments NoFuel {T}.
(** Sequencing of statements, as in encoder_map.go:15-31 *)
Definition bind {T U} (x : outcome T) (f : T -> outcome U) : outcome U :=
  match x with Done x => f x | Panics => Panics | Outside => Outside | NoFuel => NoFuel end.
(** A writer of JsonIntModel.v and JsonFloatModel.v (encoder_int.go:78-229) that indexes out of range panics *)
Definition orPanic {T} (x : option T) : outcome T := match x with Some x => Done x | None => Panics end.

(** unsafe_link.go:57-59; a pointer near nil is nil here *)
Definition add (p : option ptr) (x : Z) : option ptr := match p with Some (b, o) => Some (b, o + x) | None => None end.
(** unsafe_link.go:68-70 *)
Definition arrayAt (p : option ptr) (i eltSize : Z) : option ptr := add p (i * eltSize).

(** Reading what an unsafe pointer points to *)
Definition load (m : mem) (p : option ptr) : outcome cell :=
  match p with
  | None => Panics
  | Some (b, o) => match cells m b o with Some c => Done c | None => Outside end
  end.
(** A bool, encoder_bool.go:12 *)
Definition loadBool (m : mem) (p : option ptr) : outcome bool :=
  bind (load m p) (fun c => match c with CBool b => Done b | _ => Outside end).
Definition intkind_eqb (a b : intkind) : bool :=
  match a, b with
  | I8, I8 | U8, U8 | I16, I16 | U16, U16 | I32, I32 | U32, U32 | I64, I64 | U64, U64 => true
  | _, _ => false
  end.
(** An integer, encoder_int.go:25-86 *)
Definition loadInt (k : intkind) (m : mem) (p : option ptr) : outcome Z :=
  bind (load m p) (fun c => match c with CInt k' z => if intkind_eqb k k' then Done z else Outside | _ => Outside end).
(** A float64 or float32, encoder_float.go:20, 27 *)
Definition loadF64 (m : mem) (p : option ptr) : outcome binary64 :=
  bind (load m p) (fun c => match c with CF64 f => Done f | _ => Outside end).
Definition loadF32 (m : mem) (p : option ptr) : outcome binary32 :=
  bind (load m p) (fun c => match c with CF32 f => Done f | _ => Outside end).
(** A pointer, encoder_pointer.go:13, encoder_map.go:16, unsafe_ptr.go:45 *)
Definition loadPtr (m : mem) (p : option ptr) : outcome (option ptr) :=
  bind (load m p) (fun c => match c with CPtr q => Done q | _ => Outside end).
(** The n bytes at p *)
Fixpoint loadN (m : mem) (p : option ptr) (n : nat) : outcome bytes :=
  match n with
  | O => Done []
  | S n => bind (loadInt U8 m p) (fun b => bind (loadN m (add p 1) n) (fun r => Done (b :: r)))
  end.
(** A string or []byte, encoder_str.go:119-121, encoder_bytes.go:13: pointer and length, and the bytes of them that are read; the capacity is not used *)
Definition loadString (m : mem) (p : option ptr) : outcome bytes :=
  bind (loadPtr m p) (fun data => bind (loadInt I64 m (add p 8)) (fun n => loadN m data (Z.to_nat n))).

(** * Types *)

(** A field of a struct type (reflect.StructField, unsafe_field.go:8-13), with its offset *)
Record mfield := MField { m_name : bytes; m_tag : bytes; m_type : nat; m_offset : Z }.
(** The kinds of types (type1.Kind(), reflect2.go:163-205; encoder.go:123-174), with the types they are made of.  [GEFace]: interface{};
    [GIFace]: an interface type with methods *)
Inductive kind :=
| GBool | GInt (k : intkind) | GFloat64 | GFloat32 | GString
| GPtr (t : nat) | GSlice (t : nat) | GArray (n : nat) (t : nat)
| GStruct (fs : list mfield) | GMap (k t : nat) | GEFace | GIFace
| GFunc | GChan | GUnsafePointer | GComplex.

(** The encoders of jsonfmt with what they need to find the memory to read: element sizes (encoder_slice.go, encoder_array.go), offsets of
    fields (encoder_stuct.go), types (encoder_error.go:9-11, encoder_json_marshaler.go:10-12, encoder_dynamic.go:9-11).  [MOnePtr]:
    encoder.go:207-213 *)
Inductive menc :=
| MBytes | MErr (t : nat) | MMarsh (t : nat) | MBool | MInt (k : intkind) | MFloat64 | MFloat32 | MStr
| MPtr (e : menc) | MSlice (elemSize : Z) (e : menc) | MArray (n : nat) (elemSize : Z) (e : menc)
| MStruct (fs : list (Z * bytes * menc))
| MMap (k : mkey) (e : menc) | MDynamic (t : nat)
| MUnsupported (msg : bytes) | MOnePtr (e : menc)
(** Encoders of keys: encoder_map.go:33-63, encoder.go:79-91, 195-205 *)
with mkey := MKString (e : menc) | MKNumber (e : menc) | MKInterface.

(** An interface{} as a program has it: nil, or the type and the data word (unsafe_eface.go:8-11).  packEFace (unsafe_eface.go:17-23) makes one *)
Definition eface := option (nat * option ptr).

Section Mem.
  (** The types of the program.  [size]: of a value of the type (type1.Size()); [depth]: how deep structs and arrays are nested in each
      other by value, which is finite for every Go type *)
  Variable kinds : nat -> kind.
  Variable typeName : nat -> bytes.
  Variable size : nat -> Z.
  Variable depth : nat -> nat.
  (** []byte itself (encoder.go:15), and which types implement error and json.Marshaler (encoder.go:110-122) *)
  Variable bytesType : nat.
  Variable implErr implMarsh : nat -> bool.
  (** Error() and MarshalJSON() of a value in an interface: the message, or the text or the error's message *)
  Variable errorText : mem -> nat -> option ptr -> outcome bytes.
  Variable marshalText : mem -> nat -> option ptr -> outcome (bytes + bytes).
  Variable formatFloat64 : binary64 -> bytes.
  Variable formatFloat32 : binary32 -> bytes.

  (** reflect2.go:246-252 *)
  Definition likePtrKind (k : kind) : bool :=
    match k with GPtr _ | GMap _ _ | GChan | GFunc => true | _ => false end.
  (** reflect2.go:254-270 *)
  Fixpoint likePtrType (fuel : nat) (t : nat) : bool :=
    match fuel with
    | O => false
    | S fuel =>
      if likePtrKind (kinds t) then true
      else match kinds t with
           | GStruct [f] => likePtrType fuel (m_type f)
           | GArray 1 t' => likePtrType fuel t'
           | _ => false
           end
    end.
  (** LikePtr of each kind of type: unsafe_type.go:73-75, unsafe_ptr.go:34-36, unsafe_map.go:38-40, unsafe_struct.go:20-22,
      unsafe_array.go:26-28 *)
  Definition LikePtr (t : nat) : bool :=
    match kinds t with
    | GPtr _ | GChan | GFunc | GMap _ _ => true
    | GStruct _ | GArray _ _ => likePtrType (S (depth t)) t
    | _ => false
    end.

  (** An interface{}, unsafe_eface.go:57-59 and encoder_map.go:60 *)
  Definition loadEFace (m : mem) (p : option ptr) : outcome eface :=
    bind (load m p) (fun c =>
      match c with
      | CType None => Done None
      | CType (Some t) => bind (loadPtr m (add p 8)) (fun data => Done (Some (t, data)))
      | _ => Outside
      end).
  (** unsafe_iface.go:18-24 *)
  Definition IFaceToEFace (m : mem) (p : option ptr) : outcome eface :=
    bind (load m p) (fun c =>
      match c with
      | CItab None => Done None
      | CItab (Some t) => bind (loadPtr m (add p 8)) (fun data => Done (Some (t, data)))
      | _ => Outside
      end).
  (** UnsafeIndirect of each kind of type: unsafe_type.go:69-71, unsafe_eface.go:57-59, unsafe_iface.go:42-44, unsafe_ptr.go:44-46,
      unsafe_map.go:48-50, unsafe_struct.go:30-35, unsafe_array.go:36-41 *)
  Definition UnsafeIndirect (m : mem) (t : nat) (p : option ptr) : outcome eface :=
    match kinds t with
    | GEFace => loadEFace m p
    | GIFace => IFaceToEFace m p
    | GPtr _ | GChan | GFunc | GMap _ _ => bind (loadPtr m p) (fun q => Done (Some (t, q)))
    | GStruct _ | GArray _ _ =>
      if LikePtr t then bind (loadPtr m p) (fun q => Done (Some (t, q))) else Done (Some (t, p))
    | _ => Done (Some (t, p))
    end.

  (** ** Building encoders *)

  (** What JsonCompModel.v knows of a field and of a type (encoder.go:103-176, 216-240) *)
  Definition toField (f : mfield) : field := Field (m_name f) (m_tag f) (m_type f).
  (** encoder.go:103-176: what a type is *)
  Definition shapeOf (t : nat) : shape :=
    if Nat.eqb t bytesType then SBytes
    else if implErr t then SErr
    else if implMarsh t then SMarsh
    else match kinds t with
    | GBool => SBool | GInt k => SInt k | GFloat64 => SFloat64 | GFloat32 => SFloat32 | GString => SString
    | GPtr t => SPtr t | GSlice t => SSlice t | GArray n t => SArray n t
    | GStruct fs => SStruct (map toField fs) | GMap k t => SMap k t | GEFace => SIface | GIFace => SMethods
    | GFunc => SFunc | GChan => SChan | GUnsafePointer | GComplex => SOther
    end.

  (** encoder.go:216-240, the loop *)
  Fixpoint structFieldsM (rec : bytes -> nat -> option menc) (first : bool) (fs : list mfield) : option (list (Z * bytes * menc)) :=
    match fs with
    | [] => Some []
    | f :: r =>
      let name := getFieldName shapeOf (toField f) in
      if is_nil name then structFieldsM rec first r
      else
        let prefix := fieldPrefix first name in
        let? e := rec (prefix ++ bs " ." ++ name) (m_type f) in
        let? l := structFieldsM rec false r in
        Some ((m_offset f, prefix, e) :: l)
    end.
  (** encoder.go:197-206 *)
  Definition keyEncoderOfM (k : nat) (e : menc) : mkey :=
    if match kinds k with GString => true | _ => Nat.eqb k bytesType end then MKString e
    else match kinds k with
         | GEFace | GIFace => MKInterface
         | _ => MKNumber e
         end.
  (** encoder.go:103-176 *)
  Fixpoint encoderOfM (fuel : nat) (prefix : bytes) (t : nat) : option menc :=
    match fuel with
    | O => None
    | S fuel =>
      if Nat.eqb t bytesType then Some MBytes
      else if implErr t then Some (MErr t)
      else if implMarsh t then Some (MMarsh t)
      else match kinds t with
      | GBool => Some MBool
      | GInt k => Some (MInt k)
      | GFloat64 => Some MFloat64
      | GFloat32 => Some MFloat32
      | GString => Some MStr
      | GPtr t' => let? e := encoderOfM fuel (prefix ++ bs " [ptrElem]") t' in Some (MPtr e)
      | GSlice t' => let? e := encoderOfM fuel (prefix ++ bs " [sliceElem]") t' in Some (MSlice (size t') e)
      | GArray n t' => let? e := encoderOfM fuel (prefix ++ bs " [sliceElem]") t' in Some (MArray n (size t') e)
      | GStruct fs => let? l := structFieldsM (encoderOfM fuel) true fs in Some (MStruct l)
      | GMap k t' =>
        let? ek := encoderOfM fuel (prefix ++ bs " [mapKey]") k in
        let? e := encoderOfM fuel (prefix ++ bs " [mapElem]") t' in
        Some (MMap (keyEncoderOfM k ek) e)
      | GEFace | GIFace => Some (MDynamic t)
      | GFunc | GChan | GUnsafePointer | GComplex =>
        Some (MUnsupported (bs """can not encode " ++ typeName t ++ bs " " ++ prefix ++ bs " to json"""))
      end
    end.
  (** encoder.go:65-77 *)
  Definition EncoderOfM (fuel : nat) (t : nat) : option menc :=
    let? e := encoderOfM fuel [] t in
    Some (if LikePtr t then MOnePtr e else e).

  (** ** Encode *)

  (** encoder_slice.go:18-24 and encoder_array.go:17-23, over the addresses of the elements *)
  Fixpoint seqLoopM (w : option ptr -> bytes -> outcome bytes) (ps : list (option ptr)) (first : bool) (space : bytes) : outcome bytes :=
    match ps with
    | [] => Done space
    | p :: r => bind (w p (if first then space else space ++ [44])) (seqLoopM w r false)
    end.
  (** encoder_stuct.go:21-25, unsafe_field.go:72-74 *)
  Fixpoint structLoopM (w : menc -> option ptr -> bytes -> outcome bytes) (p : option ptr) (fs : list (Z * bytes * menc)) (space : bytes) : outcome bytes :=
    match fs with
    | [] => Done space
    | (offset, prefix, e) :: r => bind (w e (add p offset) (space ++ prefix)) (structLoopM w p r)
    end.
  (** encoder_map.go:21-28 *)
  Fixpoint mapLoopM (wk wv : option ptr -> bytes -> outcome bytes) (l : list (ptr * ptr)) (first : bool) (space : bytes) : outcome bytes :=
    match l with
    | [] => Done space
    | (k, e) :: r => bind (wk (Some k) (if first then space else space ++ [44])) (fun space => bind (wv (Some e) space) (mapLoopM wk wv r false))
    end.
  (** encoder_map.go:37-52 *)
  Definition quoteKey (w : menc -> option ptr -> bytes -> outcome bytes) (ke : mkey) (p : option ptr) (space : bytes) : outcome bytes :=
    match ke with
    | MKString e => bind (w e p space) (fun space => Done (space ++ [58]))
    | MKNumber e => bind (w e p (space ++ [34])) (fun space => Done (space ++ [34; 58]))
    | MKInterface => Outside
    end.
  (** encoder_map.go:37-63; [keyEncOf]: encoderOfMapKey (encoder.go:79-88), whose encoder gets PtrOf of the key as it is.  The dynamic type of
      an interface is no interface type. *)
  Definition writeKeyM (keyEncOf : nat -> option mkey) (w : menc -> option ptr -> bytes -> outcome bytes) (m : mem) (ke : mkey) (p : option ptr) (space : bytes) : outcome bytes :=
    match ke with
    | MKInterface =>
      bind (loadEFace m p) (fun i =>
        match i with
        | None => Panics (* reflect2.TypeOf(nil), reflect2.go:143-165 *)
        | Some (t, data) => match keyEncOf t with Some ke => quoteKey w ke data space | None => NoFuel end
        end)
    | _ => quoteKey w ke p space
    end.

  (** encoderOfMapKey, encoder.go:79-88, 197-206 *)
  Definition keyEncOf (bfuel : nat) (t : nat) : option mkey := let? e := encoderOfM bfuel [] t in Some (keyEncoderOfM t e).

  (** Encode of every encoder.  [bfuel] bounds the construction of encoders at run time (encoder_dynamic.go:18, encoder_map.go:61).  The lines are those of encoder_*.go *)
  Fixpoint encodeAt (bfuel fuel : nat) (m : mem) (e : menc) (p : option ptr) (space : bytes) : outcome bytes :=
    match fuel with
    | O => NoFuel
    | S fuel =>
      match e with
      | MBool => (* encoder_bool.go:11-18 *)
        bind (loadBool m p) (fun b => Done (space ++ (if b then bs "true" else bs "false")))
      | MInt k => (* encoder_int.go:25-86 *) bind (loadInt k m p) (fun z => orPanic (writeInt k space z))
      | MFloat64 => (* encoder_float.go:19-21 *) bind (loadF64 m p) (fun f => orPanic (WriteFloat64Lossy formatFloat64 space f))
      | MFloat32 => (* encoder_float.go:26-28 *) bind (loadF32 m p) (fun f => orPanic (WriteFloat32Lossy formatFloat32 space f))
      | MStr => (* encoder_str.go:119-121 *) bind (loadString m p) (fun s => Done (WriteString space s))
      | MBytes => (* encoder_bytes.go:12-14 *) bind (loadString m p) (fun s => Done (WriteBytes space s))
      | MErr t => (* encoder_error.go:13-19: the type assertion panics for nil *)
        bind (UnsafeIndirect m t p) (fun i =>
          match i with
          | None => Panics
          | Some (t, data) => bind (errorText m t data) (fun msg => Done (space ++ [34] ++ msg ++ [34]))
          end)
      | MMarsh t => (* encoder_json_marshaler.go:14-25 *)
        bind (UnsafeIndirect m t p) (fun i =>
          match i with
          | None => Panics
          | Some (t, data) =>
            bind (marshalText m t data) (fun r =>
              match r with inl text => Done (space ++ text) | inr err => Done (space ++ [34] ++ err ++ [34]) end)
          end)
      | MPtr e => (* encoder_pointer.go:12-18 *)
        bind (loadPtr m p) (fun q =>
          match q with
          | None => Done (space ++ bs "null")
          | Some _ => encodeAt bfuel fuel m e q space
          end)
      | MSlice elemSize e => (* encoder_slice.go:14-27 *)
        bind (loadPtr m p) (fun data =>
        bind (loadInt I64 m (add p 8)) (fun n =>
        bind (seqLoopM (encodeAt bfuel fuel m e) (map (fun i => arrayAt data (Z.of_nat i) elemSize) (seq 0 (Z.to_nat n))) true (space ++ [91])) (fun space =>
        Done (space ++ [93]))))
      | MArray n elemSize e => (* encoder_array.go:14-26 *)
        bind (seqLoopM (encodeAt bfuel fuel m e) (map (fun i => arrayAt p (Z.of_nat i) elemSize) (seq 0 n)) true (space ++ [91])) (fun space =>
        Done (space ++ [93]))
      | MStruct fs => (* encoder_stuct.go:19-28 *)
        bind (structLoopM (encodeAt bfuel fuel m) p fs (space ++ [123])) (fun space => Done (space ++ [125]))
      | MMap ke e => (* encoder_map.go:15-31; the header of a map that is not nil *)
        bind (loadPtr m p) (fun q =>
          match q with
          | None => Done (space ++ bs "null")
          | Some (b, _) =>
            match maps m b with
            | None => Outside
            | Some l =>
              bind (mapLoopM (writeKeyM (keyEncOf bfuel) (encodeAt bfuel fuel m) m ke) (encodeAt bfuel fuel m e) l true (space ++ [123])) (fun space =>
              Done (space ++ [125]))
            end
          end)
      | MDynamic t => (* encoder_dynamic.go:13-19 *)
        bind (UnsafeIndirect m t p) (fun i =>
          match i with
          | None => Done (space ++ bs "null")
          | Some (t, data) =>
            match EncoderOfM bfuel t with Some e => encodeAt bfuel fuel m e data space | None => NoFuel end
          end)
      | MUnsupported msg => (* encoder.go:182-184 *) Done (space ++ msg)
      | MOnePtr e => (* encoder.go:211-213 *) encodeAt bfuel fuel (alloc m (CPtr p)) e (Some (slot m)) space
      end
    end.

  (** encoder.go:56-63, 98-101.  TypeOf(nil) panics (reflect2.go:143-165: the Kind of a nil type) *)
  Definition MarshalToStringM (bfuel fuel : nat) (m : mem) (obj : eface) : outcome bytes :=
    match obj with
    | None => Panics
    | Some (t, data) => match EncoderOfM bfuel t with Some e => encodeAt bfuel fuel m e data [] | None => NoFuel end
    end.
End Mem.
