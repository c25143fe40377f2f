(** Model of package dump.  The package does not compile at this commit: dumpvar.go:31 and map.go:214 use reflect2 without importing it, and dumpvar.go:18, 61, 65, map.go:60, 70-71 and
    str.go:11 give a reflect.Type where jsonfmt's EncoderOf wants a reflect2.Type.  Its functions are modelled as they are written, with PtrOf of reflect2, each for any encoder its struct
    holds.  Citations without a directory are to dump. *)
From Verif Require Import Base JsonIntModel JsonStrModel.
Open Scope Z_scope.
Open Scope list_scope.

(** The map in the context, latest entry first: dumpvar.go:26-27 *)
Definition amap := list (bytes * bytes).
(** addrMap[k] = v, eface.go:33 *)
Definition put (k v : bytes) (m : amap) : amap := (k, v) :: m.
(** jsonfmt.Encoder (msgfmt/jsonfmt/encoder.go:19-21) with the map of the context, the text so far and the address of the value; None: a crash, or no end *)
Definition enc := amap -> bytes -> Z -> option (amap * bytes).

(** dumpvar.go:45-47 *)
Definition ptrToStr (p : Z) : option bytes := WriteUint64 [] p.

Section Dump.
  (** Memory, None where reading crashes *)
  Variable byteAt : Z -> option Z.
  (** An unsigned number of [n] bytes at [p], the lowest byte first (amd64): map.go:13-25 *)
  Fixpoint le (n : nat) (p : Z) : option Z :=
    match n with O => Some 0 | S n => let? b := byteAt p in let? r := le n (p + 1) in Some (b + 256 * r) end.
  (** A pointer, slice.go:11 *)
  Definition ptrAt (p : Z) : option Z := le 8 p.
  (** An int, slice.go:12-13 *)
  Definition intAt (p : Z) : option Z := let? x := le 8 p in Some (wrap_signed 64 x).
  (** The bytes of a string, msgfmt/jsonfmt/encoder_str.go:120 *)
  Fixpoint bytesAt (n : nat) (p : Z) : option bytes :=
    match n with O => Some [] | S n => let? b := byteAt p in let? r := bytesAt n (p + 1) in Some (b :: r) end.

  (** pointer.go:14-23: [ptr] is the address of the pointer *)
  Definition pointerEncoder (elem : enc) : enc := fun m space ptr =>
    let space := space ++ bs "{""__ptr__"":""" in
    let? ptrStr := ptrToStr ptr in
    let space := space ++ ptrStr ++ bs """}" in
    let? p := ptrAt ptr in
    let? r := elem m [] p in
    let '(m, text) := r in
    Some (put ptrStr text m, space).

  (** Where the variable ptr of msgfmt/jsonfmt/encoder.go:212 lies in a call: memory has the pointer there *)
  Variable box : amap -> bytes -> Z -> Z.
  (** msgfmt/jsonfmt/encoder.go:212-214: the encoder gets the address of the pointer *)
  Definition onePtr (e : enc) : enc := fun m space ptr => e m space (box m space ptr).

  (** slice.go:43-49 *)
  Fixpoint dataLoop (elem : enc) (elemSize : Z) (n : nat) (first : bool) (m : amap) (space : bytes) (offset : Z) : option (amap * bytes) :=
    match n with
    | O => Some (m, space)
    | S n =>
      let space := if first then space else space ++ bs "," in
      let? r := elem m space offset in
      let '(m, space) := r in
      dataLoop elem elemSize n false m space (offset + elemSize)
    end.
  (** slice.go:39-52 *)
  Definition encodeData (elem : enc) (elemSize : Z) : enc := fun m space ptr =>
    let? data := ptrAt ptr in
    let? len := intAt (ptr + 8) in
    let? r := dataLoop elem elemSize (Z.to_nat len) true m (space ++ bs "[") data in
    let '(m, space) := r in
    Some (m, space ++ bs "]").
  (** slice.go:21-37 *)
  Definition sliceEncoder (elem : enc) (elemSize : Z) : enc := fun m space ptr =>
    let? data := ptrAt ptr in
    let? len := intAt (ptr + 8) in
    let? cap := intAt (ptr + 16) in
    let space := space ++ bs "{""data"":{""__ptr__"":""" in
    let? ptrStr := ptrToStr data in
    let space := space ++ ptrStr ++ bs """},""len"":" in
    let? space := WriteInt64 space len in
    let space := space ++ bs ",""cap"":" in
    let? space := WriteInt64 space cap in
    let space := space ++ bs "}" in
    let? r := encodeData elem elemSize m [] ptr in
    let '(m, text) := r in
    Some (if data =? 0 then m else put ptrStr text m, space).

  (** msgfmt/jsonfmt/encoder_array.go:14-26; the elements lie one after another (reflect2/unsafe_array.go:63-65) *)
  Definition arrayEncoder (elem : enc) (elemSize : Z) (n : nat) : enc := fun m space ptr =>
    let? r := dataLoop elem elemSize n true m (space ++ bs "[") ptr in
    let '(m, space) := r in
    Some (m, space ++ bs "]").
  (** msgfmt/jsonfmt/encoder_stuct.go:21-25 with the prefixes of encoder.go:224-230: a field is its name, its offset and its encoder *)
  Fixpoint structLoop (fs : list (bytes * Z * enc)) (first : bool) (m : amap) (space : bytes) (ptr : Z) : option (amap * bytes) :=
    match fs with
    | [] => Some (m, space)
    | (name, offset, e) :: fs =>
      let space := (if first then space else space ++ bs ",") ++ bs """" ++ name ++ bs """:" in
      let? r := e m space (ptr + offset) in
      let '(m, space) := r in
      structLoop fs false m space ptr
    end.
  (** msgfmt/jsonfmt/encoder_stuct.go:19-28 *)
  Definition structEncoder (fs : list (bytes * Z * enc)) : enc := fun m space ptr =>
    let? r := structLoop fs true m (space ++ bs "{") ptr in
    let '(m, space) := r in
    Some (m, space ++ bs "}").

  (** str.go:21-35; the text of the string is jsonfmt's (msgfmt/jsonfmt/encoder_str.go:119-121) *)
  Definition stringEncoder : enc := fun m space ptr =>
    let? data := ptrAt ptr in
    let? len := intAt (ptr + 8) in
    let space := space ++ bs "{""data"":{""__ptr__"":""" in
    let? ptrStr := ptrToStr data in
    let space := space ++ ptrStr ++ bs """},""len"":" in
    let? space := WriteInt64 space len in
    let space := space ++ bs "}" in
    let? s := bytesAt (Z.to_nat len) data in
    let text := WriteString [] s in
    Some (if data =? 0 then m else put ptrStr text m, space).

  (** reflect.Type.String of the type at an address, None for nil, and dumper.EncoderOf of it: eface.go:23-30 *)
  Variable typeString : Z -> option bytes.
  Variable dumperOf : Z -> enc.
  (** eface.go:20-35 *)
  Definition efaceEncoder : enc := fun m space ptr =>
    let space := space ++ bs "{""type"":""" in
    let? dataType := ptrAt ptr in
    let? data := ptrAt (ptr + 8) in
    let? name := typeString dataType in
    let space := space ++ name ++ bs """,""data"":{""__ptr__"":""" in
    let? ptrStr := ptrToStr data in
    let space := space ++ ptrStr ++ bs """}}" in
    let? r := dumperOf dataType m [] data in
    let '(m, text) := r in
    Some (put ptrStr text m, space).

  (** The text of [8]uint8: msgfmt/jsonfmt/encoder_array.go:14-26, encoder_int.go:32-34 for map.go:60, 214 *)
  Fixpoint tophashLoop (n : nat) (first : bool) (space : bytes) (ptr : Z) : option bytes :=
    match n with
    | O => Some space
    | S n =>
      let? b := byteAt ptr in
      let? space := WriteUint8 (if first then space else space ++ bs ",") b in
      tophashLoop n false space (ptr + 1)
    end.

  Section Map.
    (** map.go:62-67: the encoders of eight keys and of eight elements, and their sizes *)
    Variable keysEncoder elemsEncoder : enc.
    Variable keySize elemSize : Z.
    (** map.go:72-77 *)
    Definition keysSize : Z := keySize * 8.
    (** map.go:73-75 *)
    Definition bucketSize : Z := 8 + keysSize + elemSize * 8 + 8.
    (** map.go:211-231; [fuel]: how many overflow buckets are followed *)
    Fixpoint encodeBucket (fuel : nat) (m : amap) (space : bytes) (ptr : Z) : option (amap * bytes) :=
      match fuel with
      | O => None
      | S fuel =>
        let space := space ++ bs "{""tophash"":" in
        let? space := tophashLoop 8 true (space ++ bs "[") ptr in
        let space := space ++ bs "]" ++ bs ",""keys"":" in
        let keysPtr := ptr + 8 in
        let? r := keysEncoder m space keysPtr in
        let '(m, space) := r in
        let space := space ++ bs ",""elems"":" in
        let? r := elemsEncoder m space (keysPtr + keysSize) in
        let '(m, space) := r in
        let space := space ++ bs ",""overflow"":{""__ptr__"":""" in
        let? overflowPtr := ptrAt (ptr + bucketSize - 8) in
        let? overflowPtrStr := ptrToStr overflowPtr in
        let space := space ++ overflowPtrStr ++ bs """}}" in
        if overflowPtr =? 0 then Some (m, space)
        else
          let? r := encodeBucket fuel m [] overflowPtr in
          let '(m, overflow) := r in
          Some (put overflowPtrStr overflow m, space)
      end.
    (** map.go:200-206 *)
    Fixpoint bucketsLoop (fuel : nat) (n : nat) (first : bool) (m : amap) (space : bytes) (cursor : Z) {struct n} : option (amap * bytes) :=
      match n with
      | O => Some (m, space)
      | S n =>
        let space := if first then space else space ++ bs ", " in
        let? r := encodeBucket fuel m space cursor in
        let '(m, space) := r in
        bucketsLoop fuel n false m space (cursor + bucketSize)
      end.
    (** map.go:197-209 *)
    Definition encodeBuckets (fuel : nat) (count : Z) (m : amap) (space : bytes) (ptr : Z) : option (amap * bytes) :=
      let? r := bucketsLoop fuel (Z.to_nat count) true m (space ++ bs "[") ptr in
      let '(m, space) := r in
      Some (m, space ++ bs "]").
    (** map.go:179-192; 8 * uintptr(i) is added to the address of the array *)
    Fixpoint bucketPtrLoop (fuel : nat) (n : nat) (first : bool) (m : amap) (space : bytes) (cursor : Z) {struct n} : option (amap * bytes) :=
      match n with
      | O => Some (m, space)
      | S n =>
        let space := if first then space else space ++ bs ", " in
        let? elemPtr := ptrAt cursor in
        let? elemPtrStr := ptrToStr elemPtr in
        let space := space ++ bs "{""__ptr__"":""" ++ elemPtrStr ++ bs """}" in
        if elemPtr =? 0 then bucketPtrLoop fuel n false m space (cursor + 8)
        else
          let? r := encodeBucket fuel m [] elemPtr in
          let '(m, elemData) := r in
          bucketPtrLoop fuel n false (put elemPtrStr elemData m) space (cursor + 8)
      end.
    (** map.go:156-172, with 175-195 *)
    Definition encodeBucketPtrSlice (fuel : nat) (m : amap) (space : bytes) (ptr : Z) : option (amap * bytes) :=
      let? data := ptrAt ptr in
      let? len := intAt (ptr + 8) in
      let? cap := intAt (ptr + 16) in
      let space := space ++ bs "{""data"":{""__ptr__"":""" in
      let? ptrStr := ptrToStr data in
      let space := space ++ ptrStr ++ bs """},""len"":" in
      let? space := WriteInt64 space len in
      let space := space ++ bs ",""cap"":" in
      let? space := WriteInt64 space cap in
      let space := space ++ bs "}" in
      let? r := bucketPtrLoop fuel (Z.to_nat len) true m (bs "[") data in
      let '(m, text) := r in
      let text := text ++ bs "]" in
      Some (if data =? 0 then m else put ptrStr text m, space).
    (** addrMap[p] is set to what an encoder gives for the address [p], unless it is nil: map.go:107-121, 137-151 *)
    Definition follow (e : amap -> bytes -> Z -> option (amap * bytes)) (p : Z) (s : bytes) (m : amap) : option amap :=
      if p =? 0 then Some m else let? r := e m [] p in let '(m, text) := r in Some (put s text m).
    (** map.go:125-153 *)
    Definition encodeExtra (fuel : nat) (m : amap) (space : bytes) (ptr : Z) : option (amap * bytes) :=
      let? overflow := ptrAt ptr in
      let? oldoverflow := ptrAt (ptr + 8) in
      let? nextOverflow := ptrAt (ptr + 16) in
      let? overflowPtr := ptrToStr overflow in
      let? oldoverflowPtr := ptrToStr oldoverflow in
      let? nextOverflowPtr := ptrToStr nextOverflow in
      let space := space ++ bs "{""overflow"":{""__ptr__"":""" ++ overflowPtr ++ bs """},""oldoverflow"":{""__ptr__"":""" ++ oldoverflowPtr ++
        bs """},""nextOverflow"":{""__ptr__"":""" ++ nextOverflowPtr ++ bs """}}" in
      let? m := follow (encodeBucketPtrSlice fuel) overflow overflowPtr m in
      let? m := follow (encodeBucketPtrSlice fuel) oldoverflow oldoverflowPtr m in
      let? m := follow (encodeBucket fuel) nextOverflow nextOverflowPtr m in
      Some (m, space).
    (** map.go:106: math.Pow(2, B) is exact; a float64 of 2^63 and more becomes the least int (amd64) *)
    Definition bucketsCount (B : Z) : Z := if B <? 63 then 2 ^ B else - 2 ^ 63.
    (** map.go:82-123, the fields at the offsets of hmap (map.go:13-25): count 0, flags 8, B 9, noverflow 10, hash0 12, buckets 16, oldbuckets 24, nevacuate 32, extra 40 *)
    Definition mapEncoder (fuel : nat) : enc := fun m space ptr =>
      let? count := intAt ptr in
      let? flags := le 1 (ptr + 8) in
      let? B := le 1 (ptr + 9) in
      let? noverflow := le 2 (ptr + 10) in
      let? hash0 := le 4 (ptr + 12) in
      let? buckets := ptrAt (ptr + 16) in
      let? oldbuckets := ptrAt (ptr + 24) in
      let? nevacuate := le 8 (ptr + 32) in
      let? extra := ptrAt (ptr + 40) in
      let? space := WriteInt64 (space ++ bs "{""count"":") count in
      let? space := WriteUint8 (space ++ bs ",""flags"":") flags in
      let? space := WriteUint8 (space ++ bs ",""B"":") B in
      let? space := WriteUint16 (space ++ bs ",""noverflow"":") noverflow in
      let? space := WriteUint32 (space ++ bs ",""hash0"":") hash0 in
      let? bucketsPtr := ptrToStr buckets in
      let? oldbucketsPtr := ptrToStr oldbuckets in
      let space := space ++ bs ",""buckets"":{""__ptr__"":""" ++ bucketsPtr ++ bs """},""oldbuckets"":{""__ptr__"":""" ++ oldbucketsPtr ++ bs """},""nevacuate"":" in
      let? space := WriteUint64 space nevacuate in
      let? extraPtr := ptrToStr extra in
      let space := space ++ bs ",""extra"":{""__ptr__"":""" ++ extraPtr ++ bs """}}" in
      let n := bucketsCount B in
      let? m := follow (encodeBuckets fuel n) buckets bucketsPtr m in
      let? m := follow (encodeBuckets fuel (Z.quot n 2)) oldbuckets oldbucketsPtr m in
      let? m := follow (encodeExtra fuel) extra extraPtr m in
      Some (m, space).
  End Map.

  (** The entries a Go map holds after the assignments: the latest for each key, in the order the iteration gives them; dumpvar.go:30-31 *)
  Fixpoint has (k : bytes) (m : amap) : bool := match m with [] => false | (k', _) :: m => if list_eq_dec Z.eq_dec k k' then true else has k m end.
  (** dumpvar.go:30 *)
  Fixpoint entries (m : amap) : amap := match m with [] => [] | (k, v) :: m => (k, v) :: filter (fun p => negb (has (fst p) [(k, v)])) (entries m) end.
  (** The text of a map of json.RawMessage: msgfmt/jsonfmt/encoder_map.go:15-31 with string keys (45-54), the texts as they are (encoder_json_marshaler.go:14-25) *)
  Fixpoint rawLoop (first : bool) (space : bytes) (l : amap) : bytes :=
    match l with [] => space | (k, v) :: l => let space := if first then space else space ++ bs "," in rawLoop false (WriteString space k ++ bs ":" ++ v) l end.
  (** dumpvar.go:25-33, the iteration giving the entries in the order [order] puts them in; [root]: the address of v.Object *)
  Definition VarString (order : amap -> amap) (root : Z) : option bytes :=
    let? r := efaceEncoder [] [] root in
    let '(m, output) := r in
    let m := put (bs "__root__") output m in
    Some (rawLoop true (bs "{") (order (entries m)) ++ bs "}").
End Dump.

(** ** Building the encoders *)
(** A type as dumpExtension and jsonfmt see it: dumpvar.go:52-72, msgfmt/jsonfmt/encoder.go:103-176.  The fields of a struct have their names (empty: left out, encoder.go:220-223;
    unexported ones are not, dumpvar.go:13), offsets and types; [TLeaf]: a type for which no other encoder is asked for (numbers, bool, interfaces, types with methods that give their text) *)
Inductive ty := TString | TPtr (t : nat) | TSlice (t : nat) | TMap (k t : nat) | TArray (n : nat) (t : nat) | TStruct (fs : list (bytes * Z * nat)) | TLeaf.
(** reflect2/reflect2.go:254-271, down to types of depth [fuel]; no chan or func here *)
Fixpoint likePtr (types : nat -> ty) (fuel : nat) (t : nat) : bool :=
  match fuel with
  | O => false
  | S fuel => match types t with TPtr _ | TMap _ _ => true | TStruct [(_, _, u)] => likePtr types fuel u | TArray 1 u => likePtr types fuel u | _ => false end
  end.
Section Typed.
  Variable byteAt : Z -> option Z.
  Variable box : amap -> bytes -> Z -> Z.
  Variable types : nat -> ty.
  (** reflect.Type.Size, dumpvar.go:66, map.go:72-73 *)
  Variable sizeOf : nat -> Z.
  (** The encoders of the leaves, msgfmt/jsonfmt/encoder.go:114-176 *)
  Variable leaf : nat -> enc.
  (** How deep likePtr looks and how many overflow buckets are followed *)
  Variable depth overflows : nat.
  (** What dumper.EncoderOf makes of what encoderOf gives: msgfmt/jsonfmt/encoder.go:71-74 *)
  Definition wrap (t : nat) (e : enc) : enc := if likePtr types depth t then onePtr box e else e.
  (** msgfmt/jsonfmt/encoder.go:226-230: [rec] for the types of the fields that have a name *)
  Fixpoint fieldEncoders (rec : nat -> option enc) (fs : list (bytes * Z * nat)) : option (list (bytes * Z * enc)) :=
    match fs with
    | [] => Some []
    | ([], _, _) :: fs => fieldEncoders rec fs
    | (name, offset, t) :: fs => let? e := rec t in let? l := fieldEncoders rec fs in Some ((name, offset, e) :: l)
    end.
  (** encoderOf of msgfmt/jsonfmt (encoder.go:103-109, 157-172) with dumpExtension (dumpvar.go:52-72) and newMapEncoder (map.go:69-80; arrays of eight are not like pointers).  The cache
      (encoder.go:66-70, 75) is filled only after an encoder is built, so it never holds a type that is being built; what it holds saves work only.  None: the recursion is deeper than [fuel]. *)
  Fixpoint encoderOf (fuel : nat) (t : nat) : option enc :=
    match fuel with
    | O => None
    | S fuel =>
      match types t with
      | TString => Some (stringEncoder byteAt)
      | TLeaf => Some (leaf t)
      | TPtr u => let? e := encoderOf fuel u in Some (pointerEncoder byteAt (wrap u e))
      | TSlice u => let? e := encoderOf fuel u in Some (sliceEncoder byteAt (wrap u e) (sizeOf u))
      | TMap k u =>
        let? ke := encoderOf fuel k in
        let? ue := encoderOf fuel u in
        Some (mapEncoder byteAt (arrayEncoder ke (sizeOf k) 8) (arrayEncoder ue (sizeOf u) 8) (sizeOf k) (sizeOf u) overflows)
      | TArray n u => let? e := encoderOf fuel u in Some (arrayEncoder e (sizeOf u) n)
      | TStruct fs => let? l := fieldEncoders (encoderOf fuel) fs in Some (structEncoder l)
      end
    end.
  (** dumper.EncoderOf: msgfmt/jsonfmt/encoder.go:65-77 *)
  Definition EncoderOf (fuel : nat) (t : nat) : option enc := let? e := encoderOf fuel t in Some (wrap t e).
  (** The encoder eface.go:29 gets for the type at an address: [typeAt] of the type there *)
  Definition dumperAt (typeAt : Z -> nat) (fuel : nat) (p : Z) : enc := fun m space ptr => let? e := EncoderOf fuel (typeAt p) in e m space ptr.
End Typed.
