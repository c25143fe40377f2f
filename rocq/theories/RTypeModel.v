(** Model of how package reflect2 hands out its Types: the cache of a configuration (reflect2.go), types by name (type_map.go), default types of kinds
    (reflect2_kind.go), and the offset gls looks up at start-up (gls/goid.go).  Citations without a directory are to reflect2. *)
From Verif Require Import Base.
Open Scope Z_scope.
Open Scope list_scope.

(** The Go types that implement Type: reflect2.go:163-205, safe_*.go, unsafe_*.go *)
Inductive impl := SafeType | SafeStruct | SafeSlice | SafeMap | UType | UStruct | UArray | USlice | UMap | UPtr | UEFace | UIFace.
(** A Type: an object of its own (the pointer that is compared with ==), how it is implemented, and what Type1 returns (safe_type.go:25-27) *)
Record obj := { oId : Z; oImpl : impl; oType1 : Z }.
(** What a call gives: a Type, nil, or a panic; reflect2.go:143-162, reflect2_kind.go:8-11 *)
Inductive res := RType (o : obj) | RNil | RPanic.

Section RType.
  (** reflect.Type by the address of its rtype, 0 for nil: its Kind (reflect2.go:165), NumMethod (195), String and Elem (type_map.go:38-43), and
      reflect.PtrTo (reflect2.go:220) *)
  Variable kind : Z -> Z.
  Variable numMethod : Z -> Z.
  Variable String : Z -> bytes.
  Variable Elem : Z -> Z.
  Variable PtrTo1 : Z -> Z.
  (** useSafeImplementation, reflect2.go:131-134 *)
  Variable safe : bool.

  (** ** The cache *)
  (** reflect2.go:163-205 for a type that is not nil: 25 Struct, 17 Array, 23 Slice, 21 Map, 22 Ptr, 18 Chan, 19 Func, 20 Interface *)
  Definition implOf (t : Z) : impl :=
    let k := kind t in
    if k =? 25 then (if safe then SafeStruct else UStruct) else
    if k =? 17 then (if safe then SafeSlice else UArray) else
    if k =? 23 then (if safe then SafeSlice else USlice) else
    if k =? 21 then (if safe then SafeMap else UMap) else
    if (k =? 22) || (k =? 18) || (k =? 19) then (if safe then SafeMap else UPtr) else
    if k =? 20 then (if safe then SafeMap else if numMethod t =? 0 then UEFace else UIFace) else
    (if safe then SafeType else UType).
  (** The cache (reflect2.go:133) and how many Types were made; the calls that are under way *)
  Inductive pc := PType2 (t : Z) | PWrap (t : Z).
  (** reflect2.go:131-134; [pending]: the goroutines that are between two accesses to the cache *)
  Record st := { cache : list (Z * obj); made : Z; pending : list (Z * pc) }.
  (** reflect2.go:136-141 *)
  Definition Froze : st := {| cache := []; made := 0; pending := [] |}.
  (** cfg.cache.Load: reflect2.go:145, 154 *)
  Fixpoint load (k : Z) (c : list (Z * obj)) : option obj := match c with [] => None | (k', o) :: c => if k =? k' then Some o else load k c end.
  (** cfg.cache.Store: reflect2.go:159 *)
  Definition store (k : Z) (o : obj) (c : list (Z * obj)) : list (Z * obj) := (k, o) :: c.
  (** Which call a goroutine is in: reflect2.go:149-158 *)
  Fixpoint at_ (g : Z) (p : list (Z * pc)) : option pc := match p with [] => None | (g', x) :: p => if g =? g' then Some x else at_ g p end.
  (** The call has got on or is over: reflect2.go:149-160 *)
  Definition leave (g : Z) (p : list (Z * pc)) : list (Z * pc) := filter (fun x => negb (fst x =? g)) p.
  (** The calls a program makes (reflect2.go:143, 152): TypeOf is given the rtype of the object, 0 for nil; the steps of a goroutine that is in a call *)
  Inductive ev := ETypeOf (g t : Z) | EType2 (g t : Z) | EStep (g : Z).
  (** What a goroutine got for which type: reflect2.go:147, 156, 160 *)
  Definition log := list (Z * Z * res).
  (** One access to the cache.  None: the goroutine is in a call, or in none *)
  Definition step (s : st) (e : ev) : option (st * log) :=
    match e with
    | ETypeOf g t => (* reflect2.go:143-150 *)
      match at_ g (pending s) with
      | Some _ => None
      | None =>
        match load t (cache s) with
        | Some o => Some (s, [(g, t, RType o)])
        | None => Some ({| cache := cache s; made := made s; pending := (g, PType2 t) :: pending s |}, [])
        end
      end
    | EType2 g t => (* reflect2.go:152-157 *)
      match at_ g (pending s) with
      | Some _ => None
      | None =>
        match load t (cache s) with
        | Some o => Some (s, [(g, t, RType o)])
        | None => Some ({| cache := cache s; made := made s; pending := (g, PWrap t) :: pending s |}, [])
        end
      end
    | EStep g =>
      match at_ g (pending s) with
      | None => None
      | Some (PType2 t) => (* reflect2.go:149, 152-157 *)
        match load t (cache s) with
        | Some o => Some ({| cache := cache s; made := made s; pending := leave g (pending s) |}, [(g, t, RType o)])
        | None => Some ({| cache := cache s; made := made s; pending := (g, PWrap t) :: leave g (pending s) |}, [])
        end
      | Some (PWrap t) => (* reflect2.go:158-160; Kind of a nil reflect.Type panics *)
        if t =? 0 then Some ({| cache := cache s; made := made s; pending := leave g (pending s) |}, [(g, t, RPanic)]) else
        let o := {| oId := made s; oImpl := implOf t; oType1 := t |} in
        Some ({| cache := store t o (cache s); made := made s + 1; pending := leave g (pending s) |}, [(g, t, RType o)])
      end
    end.
  (** An execution *)
  Fixpoint run (s : st) (evs : list ev) : option (st * log) :=
    match evs with
    | [] => Some (s, [])
    | e :: evs => let? (s, l) := step s e in let? (s, l') := run s evs in Some (s, l ++ l')
    end.
  (** A call of Type2 without other goroutines: reflect2.go:152-161 *)
  Definition Type2 (s : st) (t : Z) : st * res :=
    match load t (cache s) with
    | Some o => (s, RType o)
    | None => if t =? 0 then (s, RPanic) else
      let o := {| oId := made s; oImpl := implOf t; oType1 := t |} in ({| cache := store t o (cache s); made := made s + 1; pending := pending s |}, RType o)
    end.
  (** A call of TypeOf without other goroutines: reflect2.go:143-150 *)
  Definition TypeOf (s : st) (t : Z) : st * res := match load t (cache s) with Some o => (s, RType o) | None => Type2 s t end.
  (** reflect2.go:219-221 *)
  Definition PtrTo (s : st) (o : obj) : st * res := Type2 s (PtrTo1 (oType1 o)).

  (** ** Types by name *)
  (** types[name], type_map.go:18, 71; 0: nil *)
  Fixpoint named (name : bytes) (m : list (bytes * Z)) : Z := match m with [] => 0 | (n, t) :: m => if list_eq_dec Z.eq_dec name n then t else named name m end.
  (** type_map.go:36-44 *)
  Definition load15 (m : list (bytes * Z)) (t : Z) : list (bytes * Z) :=
    let m := if (kind t =? 22) && (kind (Elem t) =? 25) then (String (Elem t), Elem t) :: m else m in
    if (kind t =? 23) && (kind (Elem t) =? 22) && (kind (Elem (Elem t)) =? 25) then (String (Elem (Elem t)), Elem (Elem t)) :: m else m.
  (** type_map.go:31-47; typelinks1 gives the types *)
  Definition loadGo15Types (typelinks1 : list (list Z)) : list (bytes * Z) := fold_left (fun m l => fold_left load15 l m) typelinks1 [].
  (** type_map.go:55-59 *)
  Definition load17 (m : list (bytes * Z)) (t : Z) : list (bytes * Z) := if (kind t =? 22) && (kind (Elem t) =? 25) then (String (Elem t), Elem t) :: m else m.
  (** type_map.go:49-62; typelinks2 gives the sections and, for each, the offsets of its types, which resolveTypeOff turns into types; None: a panic *)
  Fixpoint loadSections (resolve : Z -> Z -> Z) (sections : list Z) (offset : list (list Z)) (m : list (bytes * Z)) {struct offset} : option (list (bytes * Z)) :=
    match offset with
    | [] => Some m
    | offs :: offset =>
      match sections with
      | [] => None
      | rodata :: sections => loadSections resolve sections offset (fold_left (fun m off => load17 m (resolve rodata off)) offs m)
      end
    end.
  (** strings.HasPrefix: type_map.go:22, 24 *)
  Fixpoint HasPrefix (s p : bytes) {struct p} : bool := match p, s with [], _ => true | x :: p, y :: s => (x =? y) && HasPrefix s p | _, [] => false end.
  (** == of strings: type_map.go:22, 24 *)
  Definition streq (a b : bytes) : bool := if list_eq_dec Z.eq_dec a b then true else false.
  (** Whether init takes the types for those of Go 1.5 and 1.6: type_map.go:21-28 *)
  Definition before17 (ver : bytes) : bool :=
    streq ver (bs "go1.5") || HasPrefix ver (bs "go1.5.") || streq ver (bs "go1.6") || HasPrefix ver (bs "go1.6.").
  (** type_map.go:70-72 *)
  Definition TypeByName (types : list (bytes * Z)) (s : st) (name : bytes) : st * res := Type2 s (named name types).

  (** ** gls/goid.go *)
  (** The offset of a field by its name: gls/goid.go:16-17; None: there is none *)
  Variable fieldOffset : Z -> bytes -> option Z.
  (** gls/goid.go:11-18; None: a panic.  The Type of a struct is a StructType; a missing field is nil (unsafe_struct.go:37-42), so that Offset panics *)
  Definition goidInit (types : list (bytes * Z)) (s : st) : option Z :=
    match snd (TypeByName types s (bs "runtime.g")) with
    | RType o => match oImpl o with UStruct => fieldOffset (oType1 o) (bs "goid") | _ => None end
    | _ => None
    end.

  (** ** Default types *)
  (** The types of the literals in reflect2_kind.go:14-29, by the kind that is the key: Bool 1, Int 2 to Int64 6, Uint 7 to Uint64 11, Uintptr 12, Float32 13,
      Float64 14, String 24, UnsafePointer 26 *)
  Variable literal : Z -> Z.
  (** The keys of the map, in the order of reflect2_kind.go:13-30 *)
  Definition kinds : list Z := [1; 8; 3; 9; 4; 10; 5; 11; 6; 7; 2; 13; 14; 12; 24; 26].
  (** reflect2_kind.go:13-30 *)
  Fixpoint kindTypes (s : st) (ks : list Z) : st * list (Z * res) :=
    match ks with [] => (s, []) | k :: ks => let (s, r) := TypeOf s (literal k) in let (s, m) := kindTypes s ks in (s, (k, r) :: m) end.
  (** reflect2_kind.go:9-11 *)
  Fixpoint DefaultTypeOfKind (m : list (Z * res)) (k : Z) : res := match m with [] => RNil | (k', r) :: m => if k =? k' then r else DefaultTypeOfKind m k end.
End RType.
