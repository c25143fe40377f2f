(** Model of msgfmt/jsonfmt: building an encoder for a type (encoder.go) and running it on a value
    (encoder_bool/slice/array/map/pointer/stuct/dynamic/error/json_marshaler.go). *)
From Verif Require Import Base JsonIntModel JsonStrModel JsonFloatModel.
From Flocq Require Import IEEE754.Bits.
Open Scope Z_scope.
Open Scope list_scope.

(** Go types, as seen by encoderOf: a graph of type identities.  A type that implements error (other than
    []byte) is [SErr], one that implements json.Marshaler is [SMarsh], whatever its kind
    (encoder.go:110-122 asks in this order).  The kinds of integers: encoder.go:126-141. *)
Inductive intkind := I8 | U8 | I16 | U16 | I32 | U32 | I64 | U64.
(** A field of a struct type, as encoder.go:216-240 sees it *)
Record field := Field { f_name : bytes; f_tag : bytes; f_type : nat }.
(** What encoder.go:103-176 asks about a type.  [SIface]: interface{}; [SMethods]: an interface type with methods
    (Error and MarshalJSON not among them), which is represented in another way, reflect2/unsafe_iface.go *)
Inductive shape :=
| SBytes | SErr | SMarsh
| SBool | SInt (k : intkind) | SFloat64 | SFloat32 | SString
| SPtr (t : nat) | SSlice (t : nat) | SArray (n : nat) (t : nat)
| SStruct (fs : list field) | SMap (k t : nat) | SIface | SMethods
| SFunc | SChan | SOther.

(** The encoders, encoder.go and encoder_*.go.  [IK]: int8Encoder ... uint64Encoder.
    [KInterface] and [KMethods] are both mapInterfaceKeyEncoder (encoder_map.go:54-63), for keys of the two kinds of interface types.
    A struct encoder field is (index of the field, prefix text, encoder). *)
Inductive encoder :=
| EBytes | EErr | EMarsh | EBool | EInt (k : intkind) | EFloat64 | EFloat32 | EStr
| EPtr (e : encoder) | ESlice (e : encoder) | EArray (n : nat) (e : encoder)
| EStruct (fs : list (nat * bytes * encoder))
| EMap (k : keyenc) (e : encoder) | EDynamic
| EUnsupported (msg : bytes)
(** encoder_map.go:33-63 and encoder.go:79-91, 195-205: the encoder of a key *)
with keyenc := KString (e : encoder) | KNumber (e : encoder) | KInterface | KMethods.

(** unicode.IsUpper on a rune below 256 (the first byte of the name converted to rune). *)
Definition isUpperLatin1 (c : Z) : bool :=
  ((65 <=? c) && (c <=? 90)) || ((192 <=? c) && (c <=? 222) && negb (c =? 215)).

(** strings.Split(s, ",")[0] *)
Fixpoint untilComma (s : bytes) : bytes :=
  match s with
  | [] => []
  | c :: r => if c =? 44 then [] else c :: untilComma r
  end.

(** s == "" or len(s) == 0, encoder.go:242-264 *)
Definition is_nil {A} (l : list A) : bool := match l with [] => true | _ => false end.

Section Build.
  (** The type graph, and the Go name of each type (only used in error messages). *)
  Variable types : nat -> shape.
  Variable typeName : nat -> bytes.

  (** encoder.go:242-264.  Field names are never empty; the tag is field.Tag().Get("json").
      includesUnexported is false (ConfigDefault, encoder.go:37). *)
  Definition getFieldName (f : field) : bytes :=
    if negb (isUpperLatin1 (hd 0 (f_name f))) then []
    else match types (f_type f) with
    | SFunc => [] | SChan => []
    | _ =>
      if is_nil (f_tag f) then f_name f
      else
        let part := untilComma (f_tag f) in
        if (lenZ part =? 1) && (hd 0 part =? 45) then []
        else if is_nil part then f_name f
        else part
    end.

  (** encoder.go:224-230: the text before a field's value. *)
  Definition fieldPrefix (first : bool) (name : bytes) : bytes :=
    (if first then [] else [44]) ++ [34] ++ name ++ [34; 58].

  (** encoder.go:216-240, the loop over the fields, given the recursive call. *)
  Fixpoint structFields (rec : bytes -> nat -> option encoder) (i : nat) (first : bool) (fs : list field)
    : option (list (nat * bytes * encoder)) :=
    match fs with
    | [] => Some []
    | f :: r =>
      let name := getFieldName f in
      if is_nil name then structFields rec (S i) first r
      else
        let prefix := fieldPrefix first name in
        let? e := rec (prefix ++ bs " ." ++ name) (f_type f) in
        let? l := structFields rec (S i) false r in
        Some ((i, prefix, e) :: l)
    end.

  (** encoder.go:197-206, given the encoder of the key type.  mapKeyEncoderCache (79-88) is omitted: it
      returns an encoder built for the same type earlier, which differs at most in the text of an
      unsupported-type message (C139 is about the caches).  A key type that implements error or json.Marshaler and is of
      kind string or interface, for which the code asks for the kind (199-204), is treated as one of another kind here. *)
  Definition keyEncoderOf (k : nat) (e : encoder) : keyenc :=
    match types k with
    | SString | SBytes => KString e
    | SIface => KInterface
    | SMethods => KMethods
    | _ => KNumber e
    end.

  (** encoder.go:103-176, with no extensions (ConfigDefault).  [None]: out of fuel, i.e. the recursion
      is deeper than [fuel]. *)
  Fixpoint encoderOf (fuel : nat) (prefix : bytes) (t : nat) : option encoder :=
    match fuel with
    | O => None
    | S fuel =>
      match types t with
      | SBytes => Some EBytes
      | SErr => Some EErr
      | SMarsh => Some EMarsh
      | SBool => Some EBool
      | SInt k => Some (EInt k)
      | SFloat64 => Some EFloat64
      | SFloat32 => Some EFloat32
      | SString => Some EStr
      | SPtr t' => let? e := encoderOf fuel (prefix ++ bs " [ptrElem]") t' in Some (EPtr e)
      | SSlice t' => let? e := encoderOf fuel (prefix ++ bs " [sliceElem]") t' in Some (ESlice e)
      | SArray n t' => let? e := encoderOf fuel (prefix ++ bs " [sliceElem]") t' in Some (EArray n e)
      | SStruct fs => let? l := structFields (encoderOf fuel) 0 true fs in Some (EStruct l)
      | SMap k t' =>
        let? ek := encoderOf fuel (prefix ++ bs " [mapKey]") k in
        let? e := encoderOf fuel (prefix ++ bs " [mapElem]") t' in
        Some (EMap (keyEncoderOf k ek) e)
      | SIface | SMethods => Some EDynamic
      | SFunc | SChan | SOther =>
        Some (EUnsupported (bs """can not encode " ++ typeName t ++ bs " " ++ prefix ++ bs " to json"""))
      end
    end.

  (** encoder.go:65-77.  encoderCache is omitted: it is keyed by type and stores what encoderOf(cfg, "", t)
      returned, so a hit returns the same encoder as a miss.  The onePtrInterfaceEncoder wrapper (72-74)
      only compensates for how pointer-shaped values are stored in an interface; values here are
      abstract, not addresses. *)
  Definition EncoderOf (fuel : nat) (t : nat) : option encoder := encoderOf fuel [] t.
End Build.

(** Values of those types.  A map is listed in its iteration order.  [VMarsh] holds what MarshalJSON
    returns: the text, or the error's message.  A non-nil interface holds its dynamic type and value.  What the Encode of encoder.go:19-21 finds at ptr. *)
Inductive val :=
| VBytes (s : bytes) | VErr (msg : bytes) | VMarsh (r : bytes + bytes)
| VBool (b : bool) | VInt (z : Z) | VFloat64 (f : binary64) | VFloat32 (f : binary32) | VStr (s : bytes)
| VPtr (p : option val) | VSeq (l : list val) | VStruct (l : list val)
| VMap (m : option (list (val * val)))
| VIface (i : option (nat * val))
| VOther (* a value of a kind with no encoder: chan, func, complex, unsafe.Pointer *).

(** encoder_int.go:22-86: the encoder of each integer kind calls the writer of the same width
    (int64Encoder and uint64Encoder also serve int, uint and uintptr, encoder.go:138-141). *)
Definition writeInt (k : intkind) (space : bytes) (z : Z) : option bytes :=
  match k with
  | I8 => WriteInt8 space z | U8 => WriteUint8 space z
  | I16 => WriteInt16 space z | U16 => WriteUint16 space z
  | I32 => WriteInt32 space z | U32 => WriteUint32 space z
  | I64 => WriteInt64 space z | U64 => WriteUint64 space z
  end.

(** How one value is written, once an encoder and the space are given. Encode of encoder.go:19-21. *)
Definition writer := encoder -> bytes -> option bytes.

(** encoder_slice.go:18-24 and encoder_array.go:17-23 *)
Fixpoint seqLoop (ws : list writer) (e : encoder) (first : bool) (space : bytes) : option bytes :=
  match ws with
  | [] => Some space
  | w :: r =>
    let space := if first then space else space ++ [44] in
    let? space := w e space in
    seqLoop r e false space
  end.

(** encoder_stuct.go:21-25 *)
Fixpoint structLoop (ws : list writer) (fs : list (nat * bytes * encoder)) (space : bytes) : option bytes :=
  match fs with
  | [] => Some space
  | (i, prefix, e) :: r =>
    let space := space ++ prefix in
    let? w := nth_error ws i in
    let? space := w e space in
    structLoop ws r space
  end.

Section Encode.
  Variable formatFloat64 : binary64 -> bytes.
  Variable formatFloat32 : binary32 -> bytes.
  Variable types : nat -> shape.
  (** EncoderOf, used by dynamicEncoder (encoder_dynamic.go:18) and mapInterfaceKeyEncoder
      (encoder_map.go:61). *)
  Variable encOf : nat -> option encoder.

  (** encoder_map.go:37-63.  [KMethods]: the key is read as an interface{} (encoder_map.go:60), though it begins with an itab
      and not with a type, so arbitrary memory is read.  [kdyn] is the dynamic type of an interface key and the writer of its value.
      None for a nil interface key (reflect2.TypeOf(nil) fails), and for a dynamic key type that is a
      pointer or a map (single-field structs and arrays of those are not told apart here): there the pointer itself is passed where a pointer to the pointer is expected
      (encoder_map.go:62 has no onePtrInterfaceEncoder), so arbitrary memory is read. *)
  Definition writeKey (ke : keyenc) (w : writer) (kdyn : option (nat * writer)) (space : bytes) : option bytes :=
    match ke with
    | KString e => let? space := w e space in Some (space ++ [58])
    | KNumber e => let? space := w e (space ++ [34]) in Some (space ++ [34; 58])
    | KInterface =>
      match kdyn with
      | None => None
      | Some (t, w') =>
        match types t with
        | SPtr _ | SMap _ _ | SFunc | SChan => None
        | _ =>
          let? e := encOf t in
          match keyEncoderOf types t e with
          | KString e => let? space := w' e space in Some (space ++ [58])
          | KNumber e => let? space := w' e (space ++ [34]) in Some (space ++ [34; 58])
          | KInterface | KMethods => None
          end
        end
      end
    | KMethods => None
    end.

  (** encoder_map.go:21-28 *)
  Fixpoint mapLoop (ws : list (writer * option (nat * writer) * writer)) (ke : keyenc) (e : encoder)
    (first : bool) (space : bytes) : option bytes :=
    match ws with
    | [] => Some space
    | (wk, kdyn, wv) :: r =>
      let space := if first then space else space ++ [44] in
      let? space := writeKey ke wk kdyn space in
      let? space := wv e space in
      mapLoop r ke e false space
    end.

  (** Encoder.Encode for each encoder; None when the value does not have the encoder's type. *)
  Fixpoint encode (v : val) : writer :=
    match v with
    | VBytes s => fun e space => match e with EBytes => Some (WriteBytes space s) | _ => None end
    | VErr msg => (* encoder_error.go:13-19 *)
      fun e space => match e with EErr => Some (space ++ [34] ++ msg ++ [34]) | _ => None end
    | VMarsh r => (* encoder_json_marshaler.go:14-25 *)
      fun e space => match e with
        | EMarsh => match r with
                    | inl text => Some (space ++ text)
                    | inr err => Some (space ++ [34] ++ err ++ [34])
                    end
        | _ => None end
    | VBool b => (* encoder_bool.go:11-18 *)
      fun e space => match e with
        | EBool => Some (space ++ (if b then bs "true" else bs "false"))
        | _ => None end
    | VInt z => fun e space => match e with EInt k => writeInt k space z | _ => None end
    | VFloat64 f => fun e space => match e with EFloat64 => WriteFloat64Lossy formatFloat64 space f | _ => None end
    | VFloat32 f => fun e space => match e with EFloat32 => WriteFloat32Lossy formatFloat32 space f | _ => None end
    | VStr s => fun e space => match e with EStr => Some (WriteString space s) | _ => None end
    | VPtr None => (* encoder_pointer.go:12-18 *)
      fun e space => match e with EPtr _ => Some (space ++ bs "null") | _ => None end
    | VPtr (Some x) =>
      let w := encode x in
      fun e space => match e with EPtr e => w e space | _ => None end
    | VSeq l => (* encoder_slice.go:14-27, encoder_array.go:14-26; a nil slice has length 0 *)
      let ws := map encode l in
      fun e space => match e with
        | ESlice e => let? space := seqLoop ws e true (space ++ [91]) in Some (space ++ [93])
        | EArray n e => let? space := seqLoop (firstn n ws) e true (space ++ [91]) in Some (space ++ [93])
        | _ => None end
    | VStruct l => (* encoder_stuct.go:19-28 *)
      let ws := map encode l in
      fun e space => match e with
        | EStruct fs => let? space := structLoop ws fs (space ++ [123]) in Some (space ++ [125])
        | _ => None end
    | VMap None => (* encoder_map.go:16-18 *)
      fun e space => match e with EMap _ _ => Some (space ++ bs "null") | _ => None end
    | VMap (Some m) => (* encoder_map.go:19-30 *)
      let ws := map (fun p => match p with (k, x) =>
                   (encode k, match k with VIface (Some (t, y)) => Some (t, encode y) | _ => None end, encode x) end) m in
      fun e space => match e with
        | EMap ke e => let? space := mapLoop ws ke e true (space ++ [123]) in Some (space ++ [125])
        | _ => None end
    | VIface None => (* encoder_dynamic.go:15-17 *)
      fun e space => match e with EDynamic => Some (space ++ bs "null") | _ => None end
    | VIface (Some (t, x)) => (* encoder_dynamic.go:18 *)
      let w := encode x in
      fun e space => match e with EDynamic => let? e := encOf t in w e space | _ => None end
    | VOther => (* encoder.go:182-184 *)
      fun e space => match e with EUnsupported msg => Some (space ++ msg) | _ => None end
    end.

End Encode.

(** encoder.go:98-101, for an object of dynamic type [t] and value [v]. *)
Definition MarshalToString ff64 ff32 (types : nat -> shape) (typeName : nat -> bytes) (fuel : nat) (t : nat) (v : val) : option bytes :=
  let? e := EncoderOf types typeName fuel t in
  encode ff64 ff32 types (EncoderOf types typeName fuel) v e [].
