(** What a dump is to show of a value: read from memory, without the encoders *)
From Verif Require Import Base DecimalSpec JsonStrSpec JsonStrProps JsonSpec DumpModel DumpSpec.
Open Scope Z_scope.
Open Scope list_scope.

(** Entries of the document: an address and what is there; the latest first *)
Definition shownEntries := list (bytes * json).
Definition showing := Z -> json -> shownEntries -> Prop.
(** The text [t] is the numeral of [n] *)
Definition numeral (t : bytes) (n : Z) : Prop := canon_int t n.
(** The text of an address; of those that no machine has (10^19 and more) only the characters are said *)
Definition addressIs (s : bytes) (p : Z) : Prop := Forall (fun b => 48 <= b <= 66) s /\ (p < 10 ^ 19 -> canon_nat s p).
Definition ptrJson (s : bytes) : json := JObj [(bs "__ptr__", JStr s)].

Section Show.
  Variable byteAt : Z -> option Z.
  (** The bytes [l] are in memory from [p] on *)
  Definition stored (p : Z) (l : bytes) : Prop := forall i b, nth_error l i = Some b -> byteAt (p + Z.of_nat i) = Some b.
  (** The [n] bytes of a number, two's complement, the lowest first *)
  Definition leBytes (n : nat) (v : Z) : bytes := map (fun i => v / 256 ^ Z.of_nat i mod 256) (seq 0 n).
  Definition unsignedAt (n : nat) (p v : Z) : Prop := stored p (leBytes n v) /\ 0 <= v < 256 ^ Z.of_nat n.
  Definition signedAt (p v : Z) : Prop := stored p (leBytes 8 v) /\ - 2 ^ 63 <= v < 2 ^ 63.

  (** Values one after another, [size] bytes apart *)
  Inductive row (one : showing) (size : Z) : nat -> Z -> list json -> shownEntries -> Prop :=
  | row_nil p : row one size 0 p [] []
  | row_cons n p j a js b : one p j a -> row one size n (p + size) js b -> row one size (S n) p (j :: js) (b ++ a).
  (** What an address leads to, if it is not nil *)
  Definition led (one : showing) (p : Z) (s : bytes) (a : shownEntries) : Prop :=
    (p = 0 /\ a = []) \/ (p <> 0 /\ exists j b, one p j b /\ a = (s, j) :: b).

  (** A string: its address and length; its bytes are under its address.  (A string that the JSON writer spoils is shown as some string.) *)
  Definition stringShown : showing := fun p j a => exists data len s u ad tl,
    unsignedAt 8 p data /\ signedAt (p + 8) len /\ stored data s /\ List.length s = Z.to_nat len /\
    ((~ exists q c, s = q ++ [c] /\ Forall (fun b => ~ must_escape b) q /\ must_escape c) -> u = s) /\
    addressIs ad data /\ numeral tl len /\ j = JObj [(bs "data", ptrJson ad); (bs "len", JNum tl)] /\ a = if data =? 0 then [] else [(ad, JStr u)].
  (** A slice: address, length and capacity; the elements are under its address *)
  Definition sliceShown (one : showing) (size : Z) : showing := fun p j a => exists data len cap ad tl tc js b,
    unsignedAt 8 p data /\ signedAt (p + 8) len /\ signedAt (p + 16) cap /\ row one size (Z.to_nat len) data js b /\
    addressIs ad data /\ numeral tl len /\ numeral tc cap /\ j = JObj [(bs "data", ptrJson ad); (bs "len", JNum tl); (bs "cap", JNum tc)] /\
    a = if data =? 0 then b else (ad, JArr js) :: b.
  (** A pointer: the address where it is kept; what it points to is under that address *)
  Definition pointerShown (one : showing) : showing := fun p j a => exists q ad k b, unsignedAt 8 p q /\ one q k b /\ addressIs ad p /\ j = ptrJson ad /\ a = (ad, k) :: b.
  Definition arrayShown (one : showing) (size : Z) (n : nat) : showing := fun p j a => exists js, row one size n p js a /\ j = JArr js.
  (** A struct: the fields that have names *)
  Inductive fieldsShown (one : nat -> showing) (p : Z) : list (bytes * Z * nat) -> list (bytes * json) -> shownEntries -> Prop :=
  | fields_nil : fieldsShown one p [] [] []
  | fields_skip offset t fs ms a : fieldsShown one p fs ms a -> fieldsShown one p (([], offset, t) :: fs) ms a
  | fields_cons name offset t fs j a ms b : name <> [] -> one t (p + offset) j a -> fieldsShown one p fs ms b -> fieldsShown one p ((name, offset, t) :: fs) ((name, j) :: ms) (b ++ a).
  Definition structShown (one : nat -> showing) (fs : list (bytes * Z * nat)) : showing := fun p j a => exists ms, fieldsShown one p fs ms a /\ j = JObj ms.

  (** A bucket of a map with keys and elements of the given sizes, and the overflow buckets that follow it *)
  Definition byteShown : showing := fun p j a => exists b t, byteAt p = Some b /\ numeral t b /\ j = JNum t /\ a = [].
  Section Map.
    Variable keys elems : showing.
    Variable keySize elemSize : Z.
    Inductive bucketShown : showing :=
    | bucket_shown p hs jk ak je ae q s a : row byteShown 1 8 p hs [] -> keys (p + 8) jk ak -> elems (p + 8 + 8 * keySize) je ae ->
        unsignedAt 8 (p + 8 + 8 * keySize + 8 * elemSize) q -> addressIs s q -> ((q = 0 /\ a = []) \/ (q <> 0 /\ exists j b, bucketShown q j b /\ a = (s, j) :: b)) ->
        bucketShown p (JObj [(bs "tophash", JArr hs); (bs "keys", jk); (bs "elems", je); (bs "overflow", ptrJson s)]) (a ++ ae ++ ak).
    (** [count] buckets one after another *)
    Definition bucketsShown (count : Z) : showing := arrayShown bucketShown (8 + 8 * keySize + 8 * elemSize + 8) (Z.to_nat count).
    (** A pointer to a bucket; the bucket is under its address *)
    Definition bucketPtrShown : showing := fun p j a => exists q s, unsignedAt 8 p q /\ addressIs s q /\ j = ptrJson s /\ led bucketShown q s a.
    (** hmap.extra: two slices of pointers to buckets, and a bucket *)
    Definition extraShown : showing := fun p j a => exists o oo no so soo sno a1 a2 a3,
      unsignedAt 8 p o /\ unsignedAt 8 (p + 8) oo /\ unsignedAt 8 (p + 16) no /\ addressIs so o /\ addressIs soo oo /\ addressIs sno no /\
      led (sliceShown bucketPtrShown 8) o so a1 /\ led (sliceShown bucketPtrShown 8) oo soo a2 /\ led bucketShown no sno a3 /\
      j = JObj [(bs "overflow", ptrJson so); (bs "oldoverflow", ptrJson soo); (bs "nextOverflow", ptrJson sno)] /\ a = a3 ++ a2 ++ a1.
    (** How many buckets there are: 2^B; before it grew: half as many.  Nothing for numbers that do not fit *)
    Definition bucketCount (B : Z) : Z := if B <? 63 then 2 ^ B else 0.
    (** hmap.  hash0 is shown right below 10^9 only *)
    Definition mapShown : showing := fun p j a => exists count flags B noverflow hash0 buckets oldbuckets nevacuate extra t1 t2 t3 t4 t5 t6 s1 s2 s3 a1 a2 a3,
      signedAt p count /\ unsignedAt 1 (p + 8) flags /\ unsignedAt 1 (p + 9) B /\ unsignedAt 2 (p + 10) noverflow /\ unsignedAt 4 (p + 12) hash0 /\
      unsignedAt 8 (p + 16) buckets /\ unsignedAt 8 (p + 24) oldbuckets /\ unsignedAt 8 (p + 32) nevacuate /\ unsignedAt 8 (p + 40) extra /\
      numeral t1 count /\ numeral t2 flags /\ numeral t3 B /\ numeral t4 noverflow /\ (hash0 < 10 ^ 9 -> numeral t5 hash0) /\ numeral t6 nevacuate /\
      addressIs s1 buckets /\ addressIs s2 oldbuckets /\ addressIs s3 extra /\
      led (bucketsShown (bucketCount B)) buckets s1 a1 /\ led (bucketsShown (bucketCount B / 2)) oldbuckets s2 a2 /\ led extraShown extra s3 a3 /\
      j = JObj [(bs "count", JNum t1); (bs "flags", JNum t2); (bs "B", JNum t3); (bs "noverflow", JNum t4); (bs "hash0", JNum t5); (bs "buckets", ptrJson s1); (bs "oldbuckets", ptrJson s2);
                (bs "nevacuate", JNum t6); (bs "extra", ptrJson s3)] /\ a = a3 ++ a2 ++ a1.
  End Map.

  (** Types whose values are kept in one word that is a pointer: the values of an interface of such a type are kept without another pointer *)
  Variable types : nat -> ty.
  Inductive oneWord : nat -> Prop :=
  | word_ptr t u : types t = TPtr u -> oneWord t
  | word_map t k u : types t = TMap k u -> oneWord t
  | word_struct t name offset u : types t = TStruct [(name, offset, u)] -> oneWord u -> oneWord t
  | word_array t u : types t = TArray 1 u -> oneWord u -> oneWord t.
  Variable sizeOf : nat -> Z.
  Variable leafShown : nat -> showing.
  (** A value of type [t] at [p] (types nested less than [fuel] deep).  What a pointer points to and the elements of a slice: if their type is a word that is a pointer, that place is
      taken for the pointer itself, so some place [b] is shown that has its address (addresses are below 2^47). *)
  Definition behind (shown : nat -> showing) (t : nat) : showing := fun p j a => (~ oneWord t /\ shown t p j a) \/ (oneWord t /\ exists b, (0 <= p < 2 ^ 47 -> stored b (leBytes 8 p)) /\ shown t b j a).
  Fixpoint shown (fuel : nat) (t : nat) : showing := fun p j a =>
    match fuel with
    | O => False
    | S fuel =>
      match types t with
      | TLeaf => leafShown t p j a
      | TString => stringShown p j a
      | TPtr u => pointerShown (behind (shown fuel) u) p j a
      | TSlice u => sliceShown (behind (shown fuel) u) (sizeOf u) p j a
      | TArray n u => arrayShown (shown fuel u) (sizeOf u) n p j a
      | TStruct fs => structShown (shown fuel) fs p j a
      | TMap k u => mapShown (arrayShown (shown fuel k) (sizeOf k) 8) (arrayShown (shown fuel u) (sizeOf u) 8) (sizeOf k) (sizeOf u) p j a
      end
    end.
End Show.

(** [e], for the value at [p], appends the text of a value and adds the texts of entries, which are as [R] says *)
Definition textsOf (x : amap) (a : shownEntries) : Prop := Forall2 (fun e q => fst e = fst q /\ Forall (fun b => 48 <= b <= 66) (fst e) /\ valueText (snd e) (snd q)) x a.
Definition shows_as (e : amap -> bytes -> Z -> option (amap * bytes)) (R : showing) : Prop := forall p m space m' out, e m space p = Some (m', out) ->
  exists t j x a, out = space ++ t /\ valueText t j /\ m' = x ++ m /\ textsOf x a /\ R p j a.
(** The member of an object: the first of that name *)
Fixpoint memberOf (k : bytes) (l : list (bytes * json)) : option json :=
  match l with [] => None | (k', j) :: l => if list_eq_dec Z.eq_dec k k' then Some j else memberOf k l end.
