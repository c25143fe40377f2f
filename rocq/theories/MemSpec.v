(** What it means that memory holds a value.  Independent of the encoders and of the methods of reflect2 in MemModel.v; uses its memory and
    types, and the values of JsonCompModel.v. *)
From Verif Require Import Base JsonCompModel MemModel.
Open Scope Z_scope.
Open Scope list_scope.

Section Holds.
  Variable kinds : nat -> kind.
  Variable size : nat -> Z.
  Variable bytesType : nat.
  Variable implErr implMarsh : nat -> bool.
  Variable errorText : mem -> nat -> option ptr -> outcome bytes.
  Variable marshalText : mem -> nat -> option ptr -> outcome (bytes + bytes).
  Notation shapeOf := (shapeOf kinds bytesType implErr implMarsh).

  (** The types whose values an interface holds in its data word, instead of a pointer to them (cmd/compile, types.IsDirectIface) *)
  Inductive direct : nat -> Prop :=
  | d_ptr t t' : kinds t = GPtr t' -> direct t
  | d_map t k t' : kinds t = GMap k t' -> direct t
  | d_chan t : kinds t = GChan -> direct t
  | d_func t : kinds t = GFunc -> direct t
  | d_unsafe t : kinds t = GUnsafePointer -> direct t
  | d_struct t f : kinds t = GStruct [f] -> direct (m_type f) -> direct t
  | d_array t t' : kinds t = GArray 1 t' -> direct t' -> direct t.
  (** Those of them that are nothing but an unsafe.Pointer *)
  Inductive just_unsafe : nat -> Prop :=
  | j_unsafe t : kinds t = GUnsafePointer -> just_unsafe t
  | j_struct t f : kinds t = GStruct [f] -> just_unsafe (m_type f) -> just_unsafe t
  | j_array t t' : kinds t = GArray 1 t' -> just_unsafe t' -> just_unsafe t.

  Definition is_interface (t : nat) : Prop := kinds t = GEFace \/ kinds t = GIFace.
  Definition at_ (m : mem) (p : ptr) (c : cell) : Prop := cells m (fst p) (snd p) = Some c.
  Definition plus (p : ptr) (x : Z) : ptr := (fst p, snd p + x).

  (** The interface{} that the variable of type t at p gives: itself if it is an interface, else one that holds its value *)
  Inductive in_interface (m : mem) : nat -> ptr -> eface -> Prop :=
  | ii_enil t p : kinds t = GEFace -> at_ m p (CType None) -> in_interface m t p None
  | ii_eface t p t' w : kinds t = GEFace -> at_ m p (CType (Some t')) -> at_ m (plus p 8) (CPtr w) -> in_interface m t p (Some (t', w))
  | ii_inil t p : kinds t = GIFace -> at_ m p (CItab None) -> in_interface m t p None
  | ii_iface t p t' w : kinds t = GIFace -> at_ m p (CItab (Some t')) -> at_ m (plus p 8) (CPtr w) -> in_interface m t p (Some (t', w))
  | ii_direct t p w : direct t -> at_ m p (CPtr w) -> in_interface m t p (Some (t, w))
  | ii_pointer t p : ~ direct t -> ~ is_interface t -> in_interface m t p (Some (t, Some p)).

  Fixpoint bytes_at (m : mem) (d : option ptr) (s : bytes) : Prop :=
    match s with
    | [] => True
    | b :: r => exists p, d = Some p /\ at_ m p (CInt U8 b) /\ bytes_at m (Some (plus p 1)) r
    end.

  (** [holds m t p v]: the variable of type t at p has the value v.  [VOther] stands for a value that is not described.
      [held m t w v]: an interface with the type t and the data word w holds the value v. *)
  Inductive holds : mem -> nat -> ptr -> val -> Prop :=
  | h_any m t p : holds m t p VOther
  | h_bool m t p b : shapeOf t = SBool -> at_ m p (CBool b) -> holds m t p (VBool b)
  | h_int m t p k z : shapeOf t = SInt k -> at_ m p (CInt k z) -> holds m t p (VInt z)
  | h_f64 m t p f : shapeOf t = SFloat64 -> at_ m p (CF64 f) -> holds m t p (VFloat64 f)
  | h_f32 m t p f : shapeOf t = SFloat32 -> at_ m p (CF32 f) -> holds m t p (VFloat32 f)
  | h_str m t p d s : shapeOf t = SString -> at_ m p (CPtr d) -> at_ m (plus p 8) (CInt I64 (lenZ s)) -> bytes_at m d s ->
      holds m t p (VStr s)
  | h_bytes m t p d s : shapeOf t = SBytes -> at_ m p (CPtr d) -> at_ m (plus p 8) (CInt I64 (lenZ s)) -> bytes_at m d s ->
      holds m t p (VBytes s)
  | h_err m t p t' w msg : shapeOf t = SErr -> in_interface m t p (Some (t', w)) -> errorText m t' w = Done msg -> holds m t p (VErr msg)
  | h_marsh m t p t' w r : shapeOf t = SMarsh -> in_interface m t p (Some (t', w)) -> marshalText m t' w = Done r -> holds m t p (VMarsh r)
  | h_nilptr m t p t' : shapeOf t = SPtr t' -> at_ m p (CPtr None) -> holds m t p (VPtr None)
  | h_ptr m t p t' q x : shapeOf t = SPtr t' -> at_ m p (CPtr (Some q)) -> holds m t' q x -> holds m t p (VPtr (Some x))
  | h_slice m t p t' d l : shapeOf t = SSlice t' -> at_ m p (CPtr d) -> at_ m (plus p 8) (CInt I64 (lenZ l)) -> holds_seq m t' d l ->
      holds m t p (VSeq l)
  | h_array m t p n t' l : shapeOf t = SArray n t' -> List.length l = n -> holds_seq m t' (Some p) l -> holds m t p (VSeq l)
  | h_struct m t p fs l : kinds t = GStruct fs -> shapeOf t = SStruct (map toField fs) -> holds_fields m p fs l -> holds m t p (VStruct l)
  | h_nilmap m t p k t' : shapeOf t = SMap k t' -> at_ m p (CPtr None) -> holds m t p (VMap None)
  | h_map m t p k t' b ps l : shapeOf t = SMap k t' -> at_ m p (CPtr (Some (b, 0))) -> maps m b = Some ps -> holds_map m k t' ps l ->
      holds m t p (VMap (Some l))
  | h_niliface m t p : is_interface t -> in_interface m t p None -> holds m t p (VIface None)
  | h_iface m t p t' w x : is_interface t -> in_interface m t p (Some (t', w)) -> held m t' w x -> holds m t p (VIface (Some (t', x)))
  with holds_seq : mem -> nat -> option ptr -> list val -> Prop :=
  | hs_nil m t d : holds_seq m t d []
  | hs_cons m t p x l : holds m t p x -> holds_seq m t (Some (plus p (size t))) l -> holds_seq m t (Some p) (x :: l)
  with holds_fields : mem -> ptr -> list mfield -> list val -> Prop :=
  | hf_nil m p : holds_fields m p [] []
  | hf_cons m p f fs x l : holds m (m_type f) (plus p (m_offset f)) x -> holds_fields m p fs l -> holds_fields m p (f :: fs) (x :: l)
  with holds_map : mem -> nat -> nat -> list (ptr * ptr) -> list (val * val) -> Prop :=
  | hm_nil m k t : holds_map m k t [] []
  | hm_cons m k t a b ps x y l : holds m k a x -> holds m t b y -> holds_map m k t ps l ->
      holds_map m k t ((a, b) :: ps) ((x, y) :: l)
  with held : mem -> nat -> option ptr -> val -> Prop :=
  | hd_direct m t w x : direct t -> holds (alloc m (CPtr w)) t (slot m) x -> held m t w x
  | hd_pointer m t q x : ~ direct t -> holds m t q x -> held m t (Some q) x.

  (** What Go guarantees about types: a value does not contain values of its own type; []byte is a slice *)
  Definition types_ok (depth : nat -> nat) : Prop :=
    (forall t fs f, kinds t = GStruct fs -> In f fs -> (depth (m_type f) < depth t)%nat) /\
    (forall t n t', kinds t = GArray n t' -> (depth t' < depth t)%nat) /\
    exists u, kinds bytesType = GSlice u.
End Holds.

(** Map keys that are written as they should be read: no errors or json.Marshalers, and in an interface nothing like a pointer *)
Section Keys.
  Variable kinds : nat -> kind.
  Definition plain_key (k : val) : Prop :=
    match k with
    | VErr _ | VMarsh _ => False
    | VIface (Some (t, y)) => ~ direct kinds t /\ match y with VErr _ | VMarsh _ => False | _ => True end
    | _ => True
    end.
  (** All the keys of the maps in a value are such *)
  Fixpoint keys_plain (v : val) : Prop :=
    match v with
    | VPtr (Some x) => keys_plain x
    | VSeq l | VStruct l => fold_right (fun x P => keys_plain x /\ P) True l
    | VMap (Some m) => fold_right (fun p P => match p with (k, x) => plain_key k /\ keys_plain k /\ keys_plain x /\ P end) True m
    | VIface (Some (_, x)) => keys_plain x
    | _ => True
    end.
End Keys.
