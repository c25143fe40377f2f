(** What JSON a Go value is expected to become.  Uses the types and values of the model, but not the
    encoders. *)
From Verif Require Import Base DecimalSpec JsonStrSpec JsonSpec JsonCompModel JsonStrProps JsonFloatProps.
From Coq Require Import Reals.
From Flocq Require Import Core IEEE754.Binary IEEE754.Bits.
Open Scope Z_scope.
Open Scope list_scope.

Section Means.
  Variable types : nat -> shape.

  (** The name of a struct field in JSON: none for unexported fields, functions, channels and the tag
      name "-"; the tag's name up to a comma if it has one; else the field's own name. *)
  Definition field_visible (f : field) : Prop :=
    (exists c r, f_name f = c :: r /\ (65 <= c <= 90 \/ 192 <= c <= 222 /\ c <> 215)) /\
    types (f_type f) <> SFunc /\ types (f_type f) <> SChan.
  Definition tag_name (tag name : bytes) : Prop :=
    ~ In 44 name /\ (tag = name \/ exists opts, tag = name ++ 44 :: opts).
  Inductive field_json : field -> option bytes -> Prop :=
  | fj_hidden f : ~ field_visible f -> field_json f None
  | fj_dash f : field_visible f -> tag_name (f_tag f) (bs "-") -> field_json f None
  | fj_own f : field_visible f -> tag_name (f_tag f) [] -> field_json f (Some (f_name f))
  | fj_tag f name : field_visible f -> tag_name (f_tag f) name -> name <> [] -> name <> bs "-" ->
      field_json f (Some name).

  (** The types an encoder must look into. *)
  Definition refers_to (t t' : nat) : Prop :=
    match types t with
    | SPtr x | SSlice x | SArray _ x => t' = x
    | SMap k x => t' = k \/ t' = x
    | SStruct fs => exists f name, In f fs /\ field_json f (Some name) /\ t' = f_type f
    | _ => False
    end.
  (** A type whose structure is finite: no infinite chain of references (so not self-referential). *)
  Inductive finite_type : nat -> Prop :=
  | finite_intro t : (forall t', refers_to t t' -> finite_type t') -> finite_type t.

  (** The integers for which the writer of that kind is exact (properties C01-C03). *)
  Definition int_range (k : intkind) (z : Z) : Prop :=
    match k with
    | I8 => -128 <= z < 128 | U8 => 0 <= z < 256
    | I16 => -32768 <= z < 32768 | U16 => 0 <= z < 65536
    | I32 => - 10^9 < z < 10^9 | U32 => 0 <= z < 10^9
    | I64 => - 2^63 <= z < 2^63 | U64 => 0 <= z < 10^19
    end.

  (** Strings and byte slices for which the writer is exact (properties C04, C05). *)
  Definition good_string (s : bytes) : Prop :=
    bytes_ok s /\ ~ exists p c, s = p ++ [c] /\ Forall (fun b => ~ must_escape b) p /\ must_escape c.
  Definition good_bytes (s : bytes) : Prop := bytes_ok s /\ ~ loses s.

  (** Name of a map key. *)
  Inductive key_name : nat -> val -> bytes -> Prop :=
  | k_str t s : types t = SString -> good_string s -> key_name t (VStr s) s
  | k_int t k z txt : types t = SInt k -> int_range k z -> canon_int txt z -> key_name t (VInt z) txt
  | k_bool t b : types t = SBool -> key_name t (VBool b) (if b then bs "true" else bs "false").

  Inductive means : nat -> val -> json -> Prop :=
  | m_bool t b : types t = SBool -> means t (VBool b) (JBool b)
  | m_int t k z txt : types t = SInt k -> int_range k z -> canon_int txt z -> means t (VInt z) (JNum txt)
  | m_float64 t f txt q : types t = SFloat64 ->
      is_finite 53 1024 f = true -> (Rabs (B2R 53 1024 f) <= 83886079)%R ->
      short_decimal txt (Rlt_bool (B2R 53 1024 f) 0) q ->
      (Rabs (q - Rabs (B2R 53 1024 f)) <= (/ 2 + / 64) / 1000000)%R -> means t (VFloat64 f) (JNum txt)
  | m_float32 t f txt q : types t = SFloat32 ->
      is_finite 24 128 f = true -> (Rabs (B2R 24 128 f) <= 83886080)%R ->
      short_decimal txt (Rlt_bool (B2R 24 128 f) 0) q ->
      (Rabs (q - Rabs (B2R 24 128 f)) <= (/ 2 + / 64) / 1000000)%R -> means t (VFloat32 f) (JNum txt)
  | m_str t s : types t = SString -> good_string s -> means t (VStr s) (JStr s)
  | m_bytes t s : types t = SBytes -> good_bytes s -> means t (VBytes s) (JStr (display s))
  | m_err t s : types t = SErr -> Forall (fun b => ~ must_escape b) s -> means t (VErr s) (JStr s)
  (** MarshalJSON returned the text of [j], maybe with white space around it; or it failed with this error. *)
  | m_marsh t text j : types t = SMarsh -> parses text j -> means t (VMarsh (inl text)) j
  | m_marsh_err t s : types t = SMarsh -> Forall (fun b => ~ must_escape b) s -> means t (VMarsh (inr s)) (JStr s)
  | m_nil_ptr t t' : types t = SPtr t' -> means t (VPtr None) JNull
  | m_ptr t t' x j : types t = SPtr t' -> means t' x j -> means t (VPtr (Some x)) j
  | m_slice t t' l js : types t = SSlice t' -> means_list t' l js -> means t (VSeq l) (JArr js)
  | m_array t n t' l js : types t = SArray n t' -> List.length l = n -> means_list t' l js ->
      means t (VSeq l) (JArr js)
  | m_struct t fs l ms : types t = SStruct fs -> means_fields fs l ms -> means t (VStruct l) (JObj ms)
  | m_nil_map t k t' : types t = SMap k t' -> means t (VMap None) JNull
  | m_map t k t' m ms : types t = SMap k t' -> means_map k t' m ms -> means t (VMap (Some m)) (JObj ms)
  | m_nil_iface t : types t = SIface \/ types t = SMethods -> means t (VIface None) JNull
  | m_iface t t' x j : types t = SIface \/ types t = SMethods -> finite_type t' -> means t' x j ->
      means t (VIface (Some (t', x))) j
  with means_list : nat -> list val -> list json -> Prop :=
  | ml_nil t : means_list t [] []
  | ml_cons t x j l js : means t x j -> means_list t l js -> means_list t (x :: l) (j :: js)
  with means_fields : list field -> list val -> list (bytes * json) -> Prop :=
  | mf_nil : means_fields [] [] []
  | mf_skip f x fs l ms : field_json f None -> means_fields fs l ms -> means_fields (f :: fs) (x :: l) ms
  | mf_keep f name x j fs l ms : field_json f (Some name) -> Forall (fun b => ~ must_escape b) name ->
      means (f_type f) x j -> means_fields fs l ms -> means_fields (f :: fs) (x :: l) ((name, j) :: ms)
  with means_map : nat -> nat -> list (val * val) -> list (bytes * json) -> Prop :=
  | mm_nil k t : means_map k t [] []
  | mm_cons k t key name x j m ms : key_name k key name -> means t x j -> means_map k t m ms ->
      means_map k t ((key, x) :: m) ((name, j) :: ms)
  | mm_iface k t k' key name x j m ms : types k = SIface -> finite_type k' -> key_name k' key name ->
      means t x j -> means_map k t m ms ->
      means_map k t ((VIface (Some (k', key)), x) :: m) ((name, j) :: ms).
End Means.
