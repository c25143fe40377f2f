(** Model of the slices of reflect2: unsafe_slice.go (the default implementation), the part of unsafe_link.go that it needs, and
    safe_slice.go (Config{UseSafeImplementation: true}).
    Simplifications: one element type; an element is a value of type A, so elements pointed to by arguments are read when the operation
    begins; assertType (a panic for a pointer to another type) is not modelled; type descriptors and the garbage collector neither. *)
From Verif Require Import Base.
Open Scope Z_scope.
Open Scope list_scope.

(** Go's int, as in unsafe_slice.go:129 and 164-177, wraps around *)
Definition int64 (z : Z) : Z := (z + 2 ^ 63) mod 2 ^ 64 - 2 ^ 63.

(** How a call of a function of unsafe_slice.go or safe_slice.go ends.  [Outside]: the code reads or writes memory outside the array, with any consequence; [Diverges]: see [capLoop]. *)
Inductive outcome (T : Type) := Done (x : T) | Panics | Outside | Diverges.
Arguments Done {T} x. Arguments Panics {T}. Arguments Outside {T}. Arguments Diverges {T}.
(** Sequencing of statements (all functions of unsafe_slice.go, safe_slice.go): a panic or a crash ends the function *)
Definition bind {T U} (x : outcome T) (f : T -> outcome U) : outcome U :=
  match x with Done x => f x | Panics => Panics | Outside => Outside | Diverges => Diverges end.
(** A memory access, as through typedmemmove in unsafe_slice.go:104: none outside the array *)
Definition access {T} (x : option T) : outcome T := match x with Some x => Done x | None => Outside end.

(** unsafe_slice.go:164-177.  [None] after 400 iterations; every run that ends takes fewer if the expected capacity is at most 2^62
    (proved).  Overflow wraps around. *)
Fixpoint capLoop (fuel : nat) (cap expectedCap : Z) : option Z :=
  match fuel with
  | O => None
  | S fuel =>
    if cap <? expectedCap then capLoop fuel (if cap <? 1024 then int64 (cap + cap) else int64 (cap + Z.quot cap 4)) expectedCap
    else Some cap
  end.
(** unsafe_slice.go:164-177 *)
Definition calcNewCap (fuel : nat) (cap expectedCap : Z) : option Z :=
  if cap =? 0 then Some expectedCap else capLoop fuel cap expectedCap.

Section Slices.
  Variable A : Type.
  Variable zero : A.
  (** Can an array of that length be allocated? *)
  Variable fits : Z -> bool.
  (** reflect.Append beyond the capacity (cap, needed): the new capacity, which depends on the version of Go *)
  Variable reflectCap : Z -> Z -> Z.

  (** Go's memory, not in /repo: the arrays; a pointer (Data in unsafe_slice.go:10) is an array and an index *)
  Definition memory := list (list A).
  Definition pointer := (nat * Z)%type.
  (** Reading and writing the element a pointer points to (reflect.typedmemmove, unsafe_link.go:8-9): [None] outside the array *)
  Definition load (m : memory) (p : pointer) : option A :=
    let? l := nth_error m (fst p) in nthZ l (snd p).
  (** The same for a list; not code of the repository *)
  Fixpoint update {T} (l : list T) (n : nat) (x : T) : list T :=
    match l, n with
    | [], _ => []
    | _ :: l, O => x :: l
    | y :: l, S n => y :: update l n x
    end.
  (** reflect.typedmemmove, unsafe_link.go:8-9 *)
  Definition store (m : memory) (p : pointer) (x : A) : option memory :=
    let? l := nth_error m (fst p) in
    let? _ := load m p in
    Some (update m (fst p) (update l (Z.to_nat (snd p)) x)).

  (** unsafe_slice.go:9-13 *)
  Record header := mkH { Data : option pointer; Len : Z; Cap : Z }.
  (** unsafe_slice.go:66-71 *)
  Definition nilSlice : header := mkH None 0 0.

  (** reflect.unsafe_NewArray, unsafe_link.go:11-12 *)
  Definition unsafe_NewArray (m : memory) (n : Z) : outcome (memory * pointer) :=
    if (n <? 0) || negb (fits n) then Panics else Done (m ++ [repeat zero (Z.to_nat n)], (List.length m, 0)).
  (** unsafe_slice.go:77-80: the length is not checked *)
  Definition UnsafeMakeSlice (m : memory) (length cap : Z) : outcome (memory * header) :=
    bind (unsafe_NewArray m cap) (fun '(m, p) => Done (m, mkH (Some p) length cap)).
  (** reflect.typedslicecopy, unsafe_link.go:14-18: the first n elements; only used with a new array as destination, so without overlap *)
  Fixpoint copyElems (m : memory) (dst src : pointer) (n : nat) : option memory :=
    match n with
    | O => Some m
    | S n =>
      let? x := load m src in
      let? m := store m dst x in
      copyElems m (fst dst, snd dst + 1) (fst src, snd src + 1) n
    end.
  Definition typedslicecopy (m : memory) (dst src : header) : outcome memory :=
    let n := Z.min (Len dst) (Len src) in
    if n =? 0 then Done m
    else if n <? 0 then Outside
    else match Data dst, Data src with
         | Some p, Some q => access (copyElems m p q (Z.to_nat n))
         | _, _ => Outside
         end.
  (** unsafe_slice.go:150-162 *)
  Definition UnsafeGrow (fuel : nat) (m : memory) (h : header) (newLength : Z) : outcome (memory * header) :=
    if newLength <=? Cap h then Done (m, mkH (Data h) newLength (Cap h))
    else match calcNewCap fuel (Cap h) newLength with
         | None => Diverges
         | Some newCap =>
           bind (UnsafeMakeSlice m (Len h) newCap) (fun '(m, newHeader) =>
           bind (typedslicecopy m newHeader h) (fun m =>
           Done (m, mkH (Data newHeader) newLength (Cap newHeader))))
         end.
  (** unsafe_slice.go:114-117, unsafe_link.go:68-70: the pointer, which is not checked *)
  Definition UnsafeGetIndex (h : header) (index : Z) : option pointer :=
    let? p := Data h in Some (fst p, snd p + index).
  (** unsafe_slice.go:101-105 *)
  Definition UnsafeSetIndex (m : memory) (h : header) (index : Z) (elem : A) : outcome memory :=
    access (let? p := UnsafeGetIndex h index in store m p elem).
  (** unsafe_slice.go:127-132 *)
  Definition UnsafeAppend (fuel : nat) (m : memory) (h : header) (elem : A) : outcome (memory * header) :=
    let oldLen := Len h in
    bind (UnsafeGrow fuel m h (int64 (oldLen + 1))) (fun '(m, h) =>
    bind (UnsafeSetIndex m h oldLen elem) (fun m =>
    Done (m, h))).
  (** unsafe_slice.go:66-71 *)
  Definition UnsafeSetNil (h : header) : header := mkH None 0 0.
  (** unsafe_slice.go:53-58 *)
  Definition UnsafeIsNil (h : header) : bool := match Data h with None => true | Some _ => false end.

  (** Go's slice expression w[lo:hi:max]; a panic if out of range.  Done by the caller of unsafe_slice.go *)
  Definition goSlice (h : header) (lo hi max : Z) : outcome header :=
    if (0 <=? lo) && (lo <=? hi) && (hi <=? max) && (max <=? Cap h)
    then Done (mkH (option_map (fun p => (fst p, snd p + lo)) (Data h)) (hi - lo) (max - lo)) else Panics.

  (** * safe_slice.go *)

  (** safe_slice.go:12-16: reflect's Index panics outside the length *)
  Definition safeSetIndex (m : memory) (h : header) (index : Z) (elem : A) : outcome memory :=
    if (0 <=? index) && (index <? Len h) then UnsafeSetIndex m h index elem else Panics.
  (** safe_slice.go:22-28: a pointer to a copy *)
  Definition safeGetIndex (m : memory) (h : header) (index : Z) : outcome (memory * pointer) :=
    if (0 <=? index) && (index <? Len h) then
      bind (access (let? p := UnsafeGetIndex h index in load m p)) (fun x => Done (m ++ [[x]], (List.length m, 0)))
    else Panics.
  (** safe_slice.go:34-39: reflect.MakeSlice panics if 0 <= length <= cap does not hold *)
  Definition safeMakeSlice (m : memory) (length cap : Z) : outcome (memory * header) :=
    if (length <? 0) || (cap <? 0) || (cap <? length) then Panics else UnsafeMakeSlice m length cap.
  (** safe_slice.go:58-63, reflect.Append of one element *)
  Definition safeAppend (m : memory) (h : header) (elem : A) : outcome (memory * header) :=
    if int64 (Len h + 1) <? Len h then Panics
    else
      bind (if Len h + 1 <=? Cap h then Done (m, mkH (Data h) (Len h + 1) (Cap h))
            else bind (UnsafeMakeSlice m (Len h + 1) (reflectCap (Cap h) (Len h + 1))) (fun '(m, newHeader) =>
                 bind (typedslicecopy m newHeader h) (fun m => Done (m, newHeader)))) (fun '(m, n) =>
      bind (UnsafeSetIndex m n (Len h) elem) (fun m => Done (m, n))).
  (** safe_slice.go:45-52: make panics for a negative delta, reflect.Append of a reflect.Value{} does for a positive one *)
  Definition safeGrow (m : memory) (h : header) (newLength : Z) : outcome (memory * header) :=
    if int64 (newLength - Cap h) =? 0 then Done (m, h) else Panics.

  (** * Programs *)

  (** A program that calls the methods of slice_type in unsafe_slice.go or safe_slice.go (the caller is not in /repo).  Variables hold slices; pointers returned by GetIndex are kept; [out]: the elements that have been read *)
  Record state := mkS { mem : memory; vars : nat -> header; ptrs : list (option pointer); out : list A }.
  (** unsafe_slice.go:159-161: the header of a variable is replaced *)
  Definition setVar (s : state) (m : memory) (v : nat) (h : header) : state :=
    mkS m (fun w => if Nat.eqb w v then h else vars s w) (ptrs s) (out s).
  Inductive op :=
  | OMake (v : nat) (length cap : Z)       (* v = MakeSlice(length, cap) *)
  | OAppend (v : nat) (x : A)
  | OGrow (v : nat) (n : Z)
  | OSet (v : nat) (i : Z) (x : A)         (* SetIndex *)
  | OGet (v : nat) (i : Z)                 (* keeps the pointer that GetIndex returns *)
  | ORead (v : nat) (i : Z)                (* what GetIndex points to *)
  | OLoad (p : nat)                        (* what the p-th of the kept pointers points to *)
  | OStore (p : nat) (x : A)
  | OSetNil (v : nat)
  | OAssign (v w : nat)                    (* UnsafeSet, unsafe_slice.go:40-42 *)
  | OSlice (v w : nat) (lo hi max : Z).    (* v = w[lo:hi:max] *)
  (** One operation of a program that uses UnsafeSliceType *)
  Definition step (fuel : nat) (s : state) (o : op) : outcome state :=
    match o with
    | OMake v length cap => bind (UnsafeMakeSlice (mem s) length cap) (fun '(m, h) => Done (setVar s m v h))
    | OAppend v x => bind (UnsafeAppend fuel (mem s) (vars s v) x) (fun '(m, h) => Done (setVar s m v h))
    | OGrow v n => bind (UnsafeGrow fuel (mem s) (vars s v) n) (fun '(m, h) => Done (setVar s m v h))
    | OSet v i x => bind (UnsafeSetIndex (mem s) (vars s v) i x) (fun m => Done (mkS m (vars s) (ptrs s) (out s)))
    | OGet v i => Done (mkS (mem s) (vars s) (ptrs s ++ [UnsafeGetIndex (vars s v) i]) (out s))
    | ORead v i =>
      bind (access (let? p := UnsafeGetIndex (vars s v) i in load (mem s) p)) (fun x => Done (mkS (mem s) (vars s) (ptrs s) (out s ++ [x])))
    | OLoad p =>
      match nth_error (ptrs s) p with
      | Some q => bind (access (let? q := q in load (mem s) q)) (fun x => Done (mkS (mem s) (vars s) (ptrs s) (out s ++ [x])))
      | None => Panics
      end
    | OStore p x =>
      match nth_error (ptrs s) p with
      | Some q => bind (access (let? q := q in store (mem s) q x)) (fun m => Done (mkS m (vars s) (ptrs s) (out s)))
      | None => Panics
      end
    | OSetNil v => Done (setVar s (mem s) v (UnsafeSetNil (vars s v)))
    | OAssign v w => Done (setVar s (mem s) v (vars s w))
    | OSlice v w lo hi max => bind (goSlice (vars s w) lo hi max) (fun h => Done (setVar s (mem s) v h))
    end.
  (** The same program with UseSafeImplementation; Set is reflect's, safe_type.go *)
  Definition safeStep (s : state) (o : op) : outcome state :=
    match o with
    | OMake v length cap => bind (safeMakeSlice (mem s) length cap) (fun '(m, h) => Done (setVar s m v h))
    | OAppend v x => bind (safeAppend (mem s) (vars s v) x) (fun '(m, h) => Done (setVar s m v h))
    | OGrow v n => bind (safeGrow (mem s) (vars s v) n) (fun '(m, h) => Done (setVar s m v h))
    | OSet v i x => bind (safeSetIndex (mem s) (vars s v) i x) (fun m => Done (mkS m (vars s) (ptrs s) (out s)))
    | OGet v i => bind (safeGetIndex (mem s) (vars s v) i) (fun '(m, p) => Done (mkS m (vars s) (ptrs s ++ [Some p]) (out s)))
    | ORead v i =>
      bind (safeGetIndex (mem s) (vars s v) i) (fun '(m, p) =>
      bind (access (load m p)) (fun x => Done (mkS m (vars s) (ptrs s) (out s ++ [x]))))
    | OSetNil v => Done (setVar s (mem s) v nilSlice)
    | OLoad _ | OStore _ _ | OAssign _ _ | OSlice _ _ _ _ _ => step 0 s o
    end.
  (** The caller's operations one after another; a panic ends the program *)
  Section Run.
    Variable next : state -> op -> outcome state.
    (** Calls of unsafe_slice.go:7-117 or of safe_slice.go in sequence *)
    Fixpoint run (s : state) (l : list op) : outcome state :=
      match l with
      | [] => Done s
      | o :: l => bind (next s o) (fun s => run s l)
      end.
  End Run.
  (** The caller's start: nothing allocated, all slices nil.  Callers of unsafe_slice.go and safe_slice.go *)
  Definition start : state := mkS [] (fun _ => nilSlice) [] [].
End Slices.
