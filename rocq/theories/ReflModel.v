(** Model of reflect2's operations on variables, fields and arrays: the unsafe implementation (unsafe_type.go, unsafe_eface.go,
    unsafe_iface.go, unsafe_ptr.go, unsafe_map.go, unsafe_slice.go, unsafe_field.go, unsafe_struct.go, unsafe_array.go) and the safe one
    (safe_type.go, safe_field.go, safe_struct.go, safe_slice.go for arrays), over the memory of MemModel.v.  An object is an interface{}
    [eface]; the methods take and give objects that hold pointers.  Of package reflect only what these methods use. *)
From Verif Require Import Base JsonIntModel JsonCompModel MemModel.
Open Scope Z_scope.
Open Scope list_scope.

(** Whether two words of memory are of one kind, for typedmemmove (unsafe_link.go:8-9) *)
Definition like (a b : option cell) : bool :=
  match a, b with
  | None, None => true
  | Some (CBool _), Some (CBool _) | Some (CF64 _), Some (CF64 _) | Some (CF32 _), Some (CF32 _)
  | Some (CPtr _), Some (CPtr _) | Some (CType _), Some (CType _) | Some (CItab _), Some (CItab _) => true
  | Some (CInt k _), Some (CInt k' _) => intkind_eqb k k'
  | _, _ => false
  end.
(** The n bytes from an address on, as offsets (unsafe_link.go:8-9) *)
Definition offsets (n : Z) : list Z := map Z.of_nat (seq 0 (Z.to_nat n)).
(** memmove, in typedmemmove (unsafe_link.go:8-9): the n bytes at [dst] become those at [src] *)
Definition move (n : Z) (m : mem) (dst src : ptr) : mem :=
  mkM (fun b o => if Nat.eqb b (fst dst) && (snd dst <=? o) && (o <? snd dst + n) then cells m (fst src) (snd src + (o - snd dst)) else cells m b o)
    (maps m) (next m).
(** Two words written at p: an interface *)
Definition store2 (m : mem) (p : ptr) (a b : cell) : mem :=
  mkM (fun k o => if Nat.eqb k (fst p) then (if o =? snd p then Some a else if o =? snd p + 8 then Some b else cells m k o) else cells m k o) (maps m) (next m).
(** A new variable with the n bytes at [src]: reflect.New and a copy (safe_field.go:48-50, safe_slice.go:29-31), or what an interface gets *)
Definition copyNew (n : Z) (m : mem) (src : ptr) : mem * ptr :=
  (mkM (fun b o => if Nat.eqb b (next m) then (if (0 <=? o) && (o <? n) then cells m (fst src) (snd src + o) else None) else cells m b o) (maps m) (S (next m)),
   (next m, 0)).

Section Refl.
  Variable kinds : nat -> kind.
  Variable size : nat -> Z.
  Variable depth : nat -> nat.
  (** reflect.PtrTo (unsafe_type.go:21), with kinds (ptrTo t) = GPtr t *)
  Variable ptrTo : nat -> nat.
  (** The zero value of a type, word by word (reflect.unsafe_New, unsafe_link.go:5-6) *)
  Variable zero : nat -> Z -> option cell.
  (** Of package reflect: assignability other than between equal types; interface types a type implements; fields with a PkgPath are not exported *)
  Variable assignable implements : nat -> nat -> bool.
  Variable exported : mfield -> bool.

  (** unsafe_link.go:8-9.  Writing where no such variable is, is [Outside] *)
  Definition typedmemmove (t : nat) (m : mem) (dst src : option ptr) : outcome mem :=
    if size t =? 0 then Done m
    else match dst, src with
    | Some d, Some s =>
      if forallb (fun i => like (cells m (fst d) (snd d + i)) (cells m (fst s) (snd s + i))) (offsets (size t)) then Done (move (size t) m d s) else Outside
    | _, _ => Panics
    end.
  (** unsafe_type.go:46-52 *)
  Definition New (t : nat) (m : mem) : mem * eface :=
    (mkM (fun b o => if Nat.eqb b (next m) then zero t o else cells m b o) (maps m) (S (next m)), Some (ptrTo t, Some (next m, 0))).
  (** unsafe_type.go:54-56 *)
  Definition PackEFace (t : nat) (p : option ptr) : eface := Some (ptrTo t, p).
  (** unsafe_type.go:77-85, with unpackEFace (unsafe_eface.go:13-15): the data word of an object that must be a *T *)
  Definition assertType (t : nat) (obj : eface) : outcome (option ptr) :=
    match obj with
    | Some (t', data) => if Nat.eqb t' (ptrTo t) then Done data else Panics
    | None => Panics
    end.
  (** unsafe_type.go:25-35, unsafe_slice.go:32-42 *)
  Definition USet (t : nat) (m : mem) (obj val : eface) : outcome mem :=
    bind (assertType t obj) (fun p => bind (assertType t val) (fun q => typedmemmove t m p q)).
  (** unsafe_type.go:63-67, unsafe_eface.go:51-55, unsafe_iface.go:36-40, unsafe_ptr.go:38-42, unsafe_map.go:42-46, unsafe_struct.go:24-28,
      unsafe_array.go:30-34 *)
  Definition UIndirect (t : nat) (m : mem) (obj : eface) : outcome eface :=
    bind (assertType t obj) (fun p => UnsafeIndirect kinds depth m t p).
  (** unsafe_type.go:43-45, unsafe_eface.go:44-49, unsafe_iface.go:54-63, unsafe_ptr.go:27-32, unsafe_map.go:31-36, unsafe_slice.go:53-58 *)
  Definition UnsafeIsNil (t : nat) (m : mem) (p : option ptr) : outcome bool :=
    match p with
    | None => Done true
    | Some _ =>
      match kinds t with
      | GPtr _ | GChan | GFunc | GMap _ _ | GSlice _ => bind (loadPtr m p) (fun q => Done (match q with None => true | Some _ => false end))
      | GEFace => bind (loadEFace m p) (fun i => Done (match i with None | Some (_, None) => true | _ => false end))
      | GIFace => bind (load m p) (fun c => match c with CItab None => Done true | CItab (Some _) => Done false | _ => Outside end)
      | _ => Done false
      end
    end.
  (** unsafe_type.go:37-41, unsafe_eface.go:35-42, unsafe_iface.go:45-52, unsafe_ptr.go:18-25, unsafe_map.go:22-29, unsafe_slice.go:44-51 *)
  Definition UIsNil (t : nat) (m : mem) (obj : eface) : outcome bool :=
    let nullable := match kinds t with GPtr _ | GChan | GFunc | GMap _ _ | GSlice _ | GEFace | GIFace => true | _ => false end in
    match obj with
    | None => if nullable then Done true else Panics
    | Some _ => bind (assertType t obj) (UnsafeIsNil t m)
    end.

  (** ** Fields *)
  (** A field as reflect describes it (reflect.StructField): the path of indices to it (Index) and the last of the fields on it, whose offset
      is the one within the innermost struct.  FieldByName (unsafe_struct.go:37-43) gives promoted fields with a path through embedded structs;
      Field (45-47) a path of one index; FieldByIndex (49-51) the last field. *)
  Record sfield := SF { s_path : list nat; s_field : mfield }.
  (** unsafe_field.go:65-74.  A pointer near nil is nil here *)
  Definition UFieldGet (t : nat) (f : sfield) (m : mem) (obj : eface) : outcome eface :=
    bind (assertType t obj) (fun p => Done (Some (ptrTo (m_type (s_field f)), add p (m_offset (s_field f))))).
  (** unsafe_field.go:52-63 *)
  Definition UFieldSet (t : nat) (f : sfield) (m : mem) (obj value : eface) : outcome mem :=
    bind (assertType t obj) (fun p => bind (assertType (m_type (s_field f)) value) (fun q => typedmemmove (m_type (s_field f)) m (add p (m_offset (s_field f))) q)).

  (** ** Arrays; [e] is the element type *)
  (** unsafe_array.go:56-65 *)
  Definition UArrayGet (t e : nat) (m : mem) (obj : eface) (index : Z) : outcome eface :=
    bind (assertType t obj) (fun p => Done (Some (ptrTo e, arrayAt p index (size e)))).
  (** unsafe_array.go:43-54 *)
  Definition UArraySet (t e : nat) (m : mem) (obj : eface) (index : Z) (elem : eface) : outcome mem :=
    bind (assertType t obj) (fun p => bind (assertType e elem) (fun q => typedmemmove e m (arrayAt p index (size e)) q)).

  (** ** The safe implementation, by package reflect *)
  (** reflect.ValueOf(obj).Elem(), as in safe_type.go:61, 69 and safe_field.go:41, 50: the variable a pointer points to; None for a nil pointer *)
  Definition elemOf (obj : eface) : outcome (option (nat * ptr)) :=
    match obj with
    | Some (t, data) => match kinds t with GPtr u => Done (match data with Some p => Some (u, p) | None => None end) | _ => Panics end
    | None => Panics
    end.
  (** reflect.Value.Interface: the interface{} for a variable, which never shares memory with it.  [isDirect]: of the compiler, see MemSpec.v *)
  Variable isDirect : nat -> bool.
  (** As in safe_type.go:42 *)
  Definition toInterface (m : mem) (u : nat) (p : ptr) : outcome (mem * eface) :=
    match kinds u with
    | GEFace => bind (loadEFace m (Some p)) (fun i => Done (m, i))
    | GIFace => bind (IFaceToEFace m (Some p)) (fun i => Done (m, i))
    | _ =>
      if isDirect u then bind (loadPtr m (Some p)) (fun w => Done (m, Some (u, w)))
      else let (m, q) := copyNew (size u) m p in Done (m, Some (u, Some q))
    end.
  (** reflect.Value.Set: the variable of type w at q is assigned to the one of type u at p *)
  Definition assign (m : mem) (u : nat) (p : ptr) (w : nat) (q : ptr) : outcome mem :=
    if Nat.eqb w u || assignable w u then typedmemmove u m (Some p) (Some q)
    else if implements w u then
      bind (toInterface m w q) (fun r =>
        let (m, i) := r in
        match kinds u with
        | GEFace => Done (match i with Some (t, w) => store2 m p (CType (Some t)) (CPtr w) | None => store2 m p (CType None) (CPtr None) end)
        | _ => Done (match i with Some (t, w) => store2 m p (CItab (Some t)) (CPtr w) | None => store2 m p (CItab None) (CPtr None) end)
        end)
    else Panics.
  (** safe_type.go:67-69; the type itself is not used *)
  Definition SSet (t : nat) (m : mem) (obj val : eface) : outcome mem :=
    bind (elemOf obj) (fun x => bind (elemOf val) (fun y =>
      match x, y with Some (u, p), Some (w, q) => assign m u p w q | _, _ => Panics end)).
  (** safe_type.go:15-17 *)
  Definition SNew (t : nat) (m : mem) : mem * eface := New t m.
  (** safe_type.go:43-45; reflect.Indirect takes other things than pointers as they are *)
  Definition SIndirect (t : nat) (m : mem) (obj : eface) : outcome (mem * eface) :=
    match obj with
    | None => Panics
    | Some (t', data) =>
      match kinds t' with
      | GPtr u => match data with Some p => toInterface m u p | None => Panics end
      | _ => Done (m, obj)
      end
    end.
  (** safe_type.go:56-61; reflect's IsNil of an unsafe.Pointer since Go 1.10 *)
  Definition SIsNil (t : nat) (m : mem) (obj : eface) : outcome bool :=
    match obj with
    | None => Done true
    | Some _ =>
      bind (elemOf obj) (fun x =>
        match x with
        | None => Panics
        | Some (u, p) =>
          match kinds u with
          | GPtr _ | GChan | GFunc | GMap _ _ | GSlice _ | GUnsafePointer =>
            bind (loadPtr m (Some p)) (fun q => Done (match q with None => true | Some _ => false end))
          | GEFace => bind (load m (Some p)) (fun c => match c with CType None => Done true | CType (Some _) => Done false | _ => Outside end)
          | GIFace => bind (load m (Some p)) (fun c => match c with CItab None => Done true | CItab (Some _) => Done false | _ => Outside end)
          | _ => Panics
          end
        end)
    end.

  (** reflect.Value.FieldByIndex (safe_field.go:42, 50): the variable at the end of a path of fields, and the last field; pointers to structs are followed except at the
      start.  (A field is read-only if the last on the path is not exported: paths of reflect go through embedded structs only.) *)
  Fixpoint fieldByIndex (m : mem) (u : nat) (p : ptr) (path : list nat) : outcome (nat * ptr * option mfield) :=
    match path with
    | [] => Done (u, p, None)
    | i :: r =>
      match kinds u with
      | GStruct fs =>
        match nth_error fs i with
        | None => Panics
        | Some f =>
          let q := (fst p, snd p + m_offset f) in
          match r with
          | [] => Done (m_type f, q, Some f)
          | _ =>
            match kinds (m_type f) with
            | GPtr s =>
              match kinds s with
              | GStruct _ => bind (loadPtr m (Some q)) (fun d => match d with Some d => fieldByIndex m s d r | None => Panics end)
              | _ => Panics
              end
            | _ => fieldByIndex m (m_type f) q r
            end
          end
        end
      | _ => Panics
      end
    end.
  (** safe_field.go:46-51 *)
  Definition SFieldGet (t : nat) (f : sfield) (m : mem) (obj : eface) : outcome (mem * eface) :=
    bind (elemOf obj) (fun x =>
      match x with
      | None => Panics
      | Some (u, p) =>
        bind (fieldByIndex m u p (s_path f)) (fun r =>
          match r with (ft, q, last) =>
            if match last with Some f => exported f | None => true end
            then let (m, c) := copyNew (size ft) m q in Done (m, Some (ptrTo ft, Some c))
            else Panics
          end)
      end).
  (** safe_field.go:37-40 *)
  Definition SFieldSet (t : nat) (f : sfield) (m : mem) (obj value : eface) : outcome mem :=
    bind (elemOf obj) (fun x =>
      match x with
      | None => Panics
      | Some (u, p) =>
        bind (fieldByIndex m u p (s_path f)) (fun r =>
          match r with (ft, q, last) =>
            bind (elemOf value) (fun y =>
              match y with
              | Some (w, v) => if match last with Some f => exported f | None => true end then assign m ft q w v else Panics
              | None => Panics
              end)
          end)
      end).
  (** safe_slice.go:26-32, for an array.  (Pointers to slices and strings are taken as well; that is not modelled here, [Outside] stands for it.) *)
  Definition SArrayGet (t e : nat) (m : mem) (obj : eface) (index : Z) : outcome (mem * eface) :=
    bind (elemOf obj) (fun x =>
      match x with
      | None => Panics
      | Some (u, p) =>
        match kinds u with
        | GArray n e' =>
          if (0 <=? index) && (index <? Z.of_nat n)
          then let (m, c) := copyNew (size e') m (fst p, snd p + index * size e') in Done (m, Some (ptrTo e', Some c))
          else Panics
        | GSlice _ | GString => Outside
        | _ => Panics
        end
      end).
  (** safe_slice.go:12-16, for an array *)
  Definition SArraySet (t e : nat) (m : mem) (obj : eface) (index : Z) (elem : eface) : outcome mem :=
    bind (elemOf obj) (fun x => bind (elemOf elem) (fun y =>
      match x, y with
      | Some (u, p), Some (w, v) =>
        match kinds u with
        | GArray n e' => if (0 <=? index) && (index <? Z.of_nat n) then assign m e' (fst p, snd p + index * size e') w v else Panics
        | GSlice _ | GString => Outside
        | _ => Panics
        end
      | _, _ => Panics
      end)).
End Refl.
