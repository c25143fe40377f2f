(** Model of reflect2's maps: unsafe_map.go and safe_map.go.  Keys and elements are values of any two types K and V; the maps of the Go runtime
    (unsafe_link.go:19-36) are lists of keys with the slots of their elements.  A slot is a variable: it can be read and written through a pointer,
    until the runtime moves the element to another slot while the map grows.  The runtime is that of Go 1.14 (go.mod:3). *)
From Verif Require Import Base.
Open Scope list_scope.

Section Maps.
  Variable K V : Type.
  (** Equality of keys, not reflexive for NaN *)
  Variable keq : K -> K -> bool.
  (** For key types in which there are interfaces, hence values that cannot be hashed (the runtime's hashMightPanic): the keys that can be; None for other key types *)
  Variable hashable : option (K -> bool).
  Variable zeroK : K.
  Variable zeroV : V.
  (** The runtime replaces an equal key by the new one for some types (needkeyupdate): +0 and -0, strings *)
  Variable keyUpdate : bool.
  (** What a slot contains after its element was moved *)
  Variable evacuated : V -> V.

  (** The memory behind the pointers of unsafe_map.go and safe_map.go.  [vars]: variables of type V, slots among them; [hdrs]: maps; [mvars]: variables of the map type, None is a nil map; [nxt] and above are free *)
  Record mheap := MH { vars : nat -> V; hdrs : nat -> option (list (K * nat)); mvars : nat -> option nat; nxt : nat }.
  (** The interface{} arguments of unsafe_map.go:56-110 and safe_map.go:16-72: nil, a pointer to a map, a map, a pointer to a key (the key it points to), a key, a pointer to an element, an element, anything else *)
  Inductive object := ONil | OMapPtr (p : option nat) | OMap (b : option nat) | OKeyPtr (k : option K) | OKey (k : K) | OElemPtr (p : option nat) | OElem (v : V)
    | OOther.
  (** What a call of a method (unsafe_map.go, safe_map.go) does: it returns, or it panics; the heap is the one after it *)
  Inductive res (T : Type) := RDone (h : mheap) (x : T) | RPanic (h : mheap).
  Arguments RDone {T} h x. Arguments RPanic {T} h.

  (** *p = v by the program, p from unsafe_map.go:91-102 or safe_map.go:49-60 *)
  Definition writeVar (h : mheap) (p : nat) (v : V) : mheap := MH (fun x => if Nat.eqb x p then v else vars h x) (hdrs h) (mvars h) (nxt h).
  (** A new variable with the value v: reflect.New, safe_map.go:57-58 *)
  Definition newVar (h : mheap) (v : V) : mheap * nat :=
    (MH (fun x => if Nat.eqb x (nxt h) then v else vars h x) (hdrs h) (mvars h) (S (nxt h)), nxt h).
  (** The runtime's change of a map (unsafe_link.go:20-22) *)
  Definition setHdr (h : mheap) (b : nat) (l : list (K * nat)) : mheap :=
    MH (vars h) (fun x => if Nat.eqb x b then Some l else hdrs h x) (mvars h) (nxt h).
  (** The pairs of a map that is not nil (unsafe_link.go:24-26) *)
  Definition pairsOf (h : mheap) (b : nat) : list (K * nat) := match hdrs h b with Some l => l | None => [] end.

  (** ** The runtime *)
  (** The slot of a key (unsafe_link.go:24-26) *)
  Definition findSlot (k : K) (l : list (K * nat)) : option nat := option_map snd (find (fun x => keq k (fst x)) l).
  (** Growing: the elements in the slots that [moves] selects go to new slots *)
  Fixpoint relocate (moves : nat -> bool) (h : mheap) (l : list (K * nat)) : mheap * list (K * nat) :=
    match l with
    | [] => (h, [])
    | (k, s) :: r =>
      if moves s then
        let (h1, n) := newVar h (vars h s) in
        let (h2, r') := relocate moves (writeVar h1 s (evacuated (vars h s))) r in (h2, (k, n) :: r')
      else let (h2, r') := relocate moves h r in (h2, (k, s) :: r')
    end.
  (** mapassign up to the copying of the element (unsafe_link.go:20-22): the slot for the key, with a zero element if it is new *)
  Definition slotFor (moves : nat -> bool) (h : mheap) (b : nat) (k : K) : mheap * nat :=
    let (h, l) := relocate moves h (pairsOf h b) in
    match findSlot k l with
    | Some s => (setHdr h b (map (fun x => if keq k (fst x) && keyUpdate then (k, snd x) else x) l), s)
    | None => let (h, n) := newVar h zeroV in (setHdr h b (l ++ [(k, n)]), n)
    end.
  (** Hashing the key behind a pointer (unsafe_link.go:20-26), where it can fail *)
  Definition hashes (k : option K) : bool := match hashable, k with None, _ => true | Some can, Some k => can k | Some _, None => false end.
  (** mapaccess (unsafe_link.go:24-26); if the map is nil or empty, the key is only looked at for key types whose hash can fail; a nil pointer to a key is dereferenced otherwise *)
  Definition mapaccess (h : mheap) (m : option nat) (k : option K) : res (option nat) :=
    if negb (hashes k) then RPanic h else
    match m with
    | None => RDone h None
    | Some b => match pairsOf h b, k with [], _ => RDone h None | _, None => RPanic h | l, Some k => RDone h (findSlot k l) end
    end.
  (** mapassign (unsafe_link.go:20-22) with the element at [elem], which is read (and a nil pointer found out) when the slot is there already *)
  Definition mapassign (moves : nat -> bool) (h : mheap) (m : option nat) (k : option K) (elem : option nat) : res unit :=
    match m, k with
    | Some b, Some k =>
      if negb (hashes (Some k)) then RPanic h else
      let (h', s) := slotFor moves h b k in
      match elem with Some e => RDone (writeVar h' s (vars h' e)) tt | None => RPanic h' end
    | _, _ => RPanic h
    end.
  (** mapdelete, which reflect's SetMapIndex (safe_map.go:30) uses; moves elements as well *)
  Definition mapdelete (moves : nat -> bool) (h : mheap) (m : option nat) (k : K) : res unit :=
    if negb (hashes (Some k)) then RPanic h else
    match m with
    | None => RDone h tt
    | Some b => let (h, l) := relocate moves h (pairsOf h b) in RDone (setHdr h b (filter (fun x => negb (keq k (fst x))) l)) tt
    end.

  (** ** unsafe_map.go *)
  (** unsafe_map.go:56-63, with makeMapWithSize; the capacity is a hint *)
  Definition UMakeMap (h : mheap) : mheap * object :=
    (MH (vars h) (fun x => if Nat.eqb x (nxt h) then Some [] else hdrs h x) (fun x => if Nat.eqb x (S (nxt h)) then Some (nxt h) else mvars h x) (S (S (nxt h))),
     OMapPtr (Some (S (nxt h)))).
  (** unsafe_map.go:65-77; assertType panics for objects of other types, and a nil pointer to the map is dereferenced *)
  Definition USetIndex (moves : nat -> bool) (h : mheap) (obj key elem : object) : res unit :=
    match obj, key, elem with
    | OMapPtr (Some p), OKeyPtr k, OElemPtr e => mapassign moves h (mvars h p) k e
    | _, _, _ => RPanic h
    end.
  (** unsafe_map.go:91-102 *)
  Definition UGetIndex (h : mheap) (obj key : object) : res object :=
    match obj, key with
    | OMapPtr (Some p), OKeyPtr k => match mapaccess h (mvars h p) k with RDone h s => RDone h (OElemPtr s) | RPanic h => RPanic h end
    | _, _ => RPanic h
    end.
  (** unsafe_map.go:79-89 *)
  Definition UTryGetIndex (h : mheap) (obj key : object) : res (object * bool) :=
    match obj, key with
    | OMapPtr (Some p), OKeyPtr k =>
      match mapaccess h (mvars h p) k with
      | RDone h None => RDone h (ONil, false)
      | RDone h (Some s) => RDone h (OElemPtr (Some s), true)
      | RPanic h => RPanic h
      end
    | _, _ => RPanic h
    end.
  (** unsafe_map.go:118-122: the runtime's iterator, as the pairs it has yet to give; None for a nil map.  [order]: the pairs in the order of this
      iteration, chosen by the runtime.  Changes of the map during an iteration are not modelled. *)
  Definition UIter := option (list (K * nat)).
  (** unsafe_map.go:104-116 *)
  Definition UIterate (order : list (K * nat)) (h : mheap) (obj : object) : res UIter :=
    match obj with
    | OMapPtr (Some p) => RDone h (match mvars h p with None => None | Some _ => Some order end)
    | _ => RPanic h
    end.
  (** unsafe_map.go:124-126 *)
  Definition UHasNext (it : UIter) : bool := match it with Some (_ :: _) => true | _ => false end.
  (** unsafe_map.go:128-138: pointers into the map.  After the last pair: nil pointers; mapiternext dereferences the nil map *)
  Definition UNext (h : mheap) (it : UIter) : res (object * object * UIter) :=
    match it with
    | None => RPanic h
    | Some [] => RDone h (OKeyPtr None, OElemPtr None, Some [])
    | Some ((k, s) :: r) => RDone h (OKeyPtr (Some k), OElemPtr (Some s), Some r)
    end.

  (** ** safe_map.go *)
  (** safe_map.go:16-20 *)
  Definition SMakeMap (h : mheap) : mheap * object := UMakeMap h.
  (** safe_map.go:26-31.  Elem of what is no pointer panics; of a nil pointer it is the zero Value, which SetMapIndex takes for "delete" if it is the
      element.  Keys and elements of other types panic (assignable ones are not modelled). *)
  Definition SSetIndex (moves : nat -> bool) (h : mheap) (obj key elem : object) : res unit :=
    match obj, key, elem with
    | OMapPtr (Some p), OKeyPtr (Some k), OElemPtr (Some e) => mapassign moves h (mvars h p) (Some k) (Some e)
    | OMapPtr (Some p), OKeyPtr (Some k), (OElemPtr None | OKeyPtr None | OMapPtr None) => mapdelete moves h (mvars h p) k
    | _, _, _ => RPanic h
    end.
  (** reflect's MapIndex (safe_map.go:42, 52, 90): the element of a key, a Value; it panics for keys that cannot be hashed *)
  Definition mapIndex (h : mheap) (m : option nat) (k : K) : res (option V) :=
    if negb (hashes (Some k)) then RPanic h else
    RDone h (match m with None => None | Some b => option_map (vars h) (findSlot k (pairsOf h b)) end).
  (** safe_map.go:49-60 *)
  Definition SGetIndex (h : mheap) (obj key : object) : res object :=
    match obj, key with
    | OMapPtr (Some p), OKeyPtr (Some k) =>
      match mapIndex h (mvars h p) k with
      | RPanic h => RPanic h
      | RDone h None => RDone h (OElemPtr None)
      | RDone h (Some v) => let (h, n) := newVar h v in RDone h (OElemPtr (Some n))
      end
    | _, _ => RPanic h
    end.
  (** safe_map.go:37-47: no Elem here.  MapIndex of what is no map panics *)
  Definition STryGetIndex (h : mheap) (obj key : object) : res (object * bool) :=
    match obj, (match key with ONil => OKey zeroK | _ => key end) with
    | OMap m, OKey k => match mapIndex h m k with RPanic h => RPanic h | RDone h None => RDone h (ONil, false) | RDone h (Some v) => RDone h (OElem v, true) end
    | _, _ => RPanic h
    end.
  (** safe_map.go:78-82: the variable that holds the map, its keys at the start, and the position *)
  Record SIter := SI { s_map : nat; s_keys : list K; s_i : nat }.
  (** safe_map.go:66-72; [order] as for UIterate, the keys of a nil map are none *)
  Definition SIterate (order : list (K * nat)) (h : mheap) (obj : object) : res SIter :=
    match obj with
    | OMapPtr (Some p) => RDone h (SI p (match mvars h p with None => [] | Some _ => map fst order end) 0)
    | _ => RPanic h
    end.
  (** safe_map.go:84-86 *)
  Definition SHasNext (it : SIter) : bool := negb (Nat.eqb (s_i it) (List.length (s_keys it))).
  (** safe_map.go:88-97: Type of the zero Value panics, if there is no element for the key (any more) *)
  Definition SNext (h : mheap) (it : SIter) : res (object * object * SIter) :=
    match nth_error (s_keys it) (s_i it) with
    | None => RPanic h
    | Some k =>
      match mapIndex h (mvars h (s_map it)) k with
      | RPanic h | RDone h None => RPanic h
      | RDone h (Some v) => let (h, n) := newVar h v in RDone h (OKeyPtr (Some k), OElemPtr (Some n), SI (s_map it) (s_keys it) (S (s_i it)))
      end
    end.
End Maps.
Arguments MH {K V} _ _ _ _. Arguments vars {K V} _ _. Arguments hdrs {K V} _ _. Arguments mvars {K V} _ _. Arguments nxt {K V} _.
Arguments ONil {K V}. Arguments OMapPtr {K V} p. Arguments OMap {K V} b. Arguments OKeyPtr {K V} k. Arguments OKey {K V} k. Arguments OElemPtr {K V} p.
Arguments OElem {K V} v. Arguments OOther {K V}. Arguments RDone {K V T} h x. Arguments RPanic {K V T} h.
Arguments writeVar {K V} h p v. Arguments newVar {K V} h v. Arguments setHdr {K V} h b l. Arguments pairsOf {K V} h b. Arguments UMakeMap {K V} h.
Arguments SMakeMap {K V} h. Arguments UIterate {K V} order h obj. Arguments UHasNext {K} it. Arguments UNext {K V} h it.
Arguments SI {K} _ _ _. Arguments s_map {K} _. Arguments s_keys {K} _. Arguments s_i {K} _. Arguments SIterate {K V} order h obj. Arguments SHasNext {K} it.
