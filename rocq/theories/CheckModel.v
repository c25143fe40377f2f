(** Model of test/case.go and of the checks of packages test/must and test/should other than the JSON ones
    (AssertModel.v): Nil, NotNil, Assert, Pass, Equal, Panic, Call, Set.  The goroutine local storage is that of
    GlsModel.v (gls/gls.go); *testing.T, package reflect and the panics of Go are modelled as far as the checks use
    them. *)
From Verif Require Import Base GlsModel.

(** ** Values *)

(** reflect.Kind, as the numbers the code compares (assertions.go:390 uses the order): Bool 1, the numbers 2 to 16,
    Array 17, Chan 18, Func 19, Interface 20, Map 21, Ptr 22, Slice 23, String 24, Struct 25, UnsafePointer 26. *)
Definition KChan : Z := 18.
(** As KChan: assertions.go:390 *)
Definition KSlice : Z := 23.
(** As KChan: the kind of the value of the panic of case.go:41 *)
Definition KString : Z := 24.
(** The type string, numbered (types of the kind String have other numbers): must/pass.go:37, should/pass.go:20, 38 *)
Definition stringType : Z := 24.
(** As KChan: the kinds call.go:50 dereferences *)
Definition KPtr : Z := 22.

(** An interface{} (must/nil.go:9, must/call.go:14): nil, or a value with its type (numbered), the kind of the type,
    and its data.  For the kinds that can be nil, the data is 0 exactly for nil. *)
Inductive iface := INil | IVal (ty kind data : Z).

(** What ends a function before its return: a panic, or runtime.Goexit (called by t.FailNow, thus by t.Fatal and
    t.Skip).  case.go:31, 41; must/nil.go:20. *)
Inductive abrupt := Panics (v : iface) | Goexit.

(** What is seen of a test: calls of t.Errorf by package assert, of t.Error, t.Fatal and t.Skip with t; the text is
    that of the failed lines or "check failed" (must/nil.go:17, 20); [Marks]: any step of the test itself that is no
    check.  [Crashes]: the goroutine ends by a panic, which ends the process; [Ends]: it ends otherwise. *)
Inductive text := FailedLines | CheckFailed | KeyValue | OfAssert | OfSkip.
(** As text: must/nil.go:17, 20, case.go:31 *)
Inductive effect :=
| Errors (t : Z) (x : text)
| Fatals (t : Z) (x : text)
| Skips (t : Z)
| Marks (n : Z)
| Crashes (v : iface)
| Ends.

(** The maps of gls (gls.go:5, 10), and the id of the next goroutine. *)
Record world := mkWorld { tables : list table; maps : Z -> Z -> option (option nat); nextGoid : Z }.

(** A computation of a goroutine: no counterpart in the source; e.g. test/must/nil.go:9-21.  The effects carry the
    goroutine. *)
Definition comp (A : Type) : Type := world -> world * list (Z * effect) * (A + abrupt).
(** return: e.g. must/nil.go:12 *)
Definition ret {A} (x : A) : comp A := fun w => (w, [], inl x).
(** sequence: e.g. must/nil.go:10-11 *)
Definition bind {A B} (c : comp A) (f : A -> comp B) : comp B := fun w =>
  match c w with
  | (w, e, inl x) => match f x w with (w, e', r) => (w, e ++ e', r) end
  | (w, e, inr a) => (w, e, inr a)
  end.
(** an observable call: e.g. must/nil.go:20 *)
Definition emit (g : Z) (e : effect) : comp unit := fun w => (w, [(g, e)], inl tt).
(** panic and Goexit: case.go:41, must/nil.go:20 *)
Definition abort {A} (a : abrupt) : comp A := fun w => (w, [], inr a).
Notation "x <- c ;; d" := (bind c (fun x => d)) (at level 61, c at next level, right associativity).
Notation "c ;;; d" := (bind c (fun _ => d)) (at level 61, right associativity).

(** ** test/case.go *)

(** case.go:11; the key, numbered *)
Definition testingTType : Z := 1.

(** The panic of case.go:41, and the run-time panics of package reflect, of failed type assertions and of indices out
    of range (pass.go:37-38, call.go:16-50): a string, or an error. *)
Definition notStarted : iface := IVal stringType KString 1.
(** As notStarted: call.go:16-50 *)
Definition runtimeError : iface := IVal (-2) KPtr 1.

(** case.go:38-44, with gls.Get (gls.go:85-91) in one step: a goroutine's map is used by no other goroutine unless
    ResetGls is called with the id of another one.  A value stored under the key that is not nil is a *testing.T. *)
Definition CurrentT (g : Z) : comp Z := fun w =>
  match GetGls g (maps w) with
  | None => abort (Panics notStarted) w
  | Some a =>
    match nth a (tables w) (fun _ => None) testingTType with
    | Some t => if t =? nil_value then abort (Panics notStarted) w else ret t w
    | None => abort (Panics notStarted) w
    end
  end.

(** case.go:16-18 *)
Definition enterCase (g t : Z) : comp unit := fun w =>
  (mkWorld (tables w ++ [upd (fun _ => None) testingTType (Some t)])
     (ResetGls g (Some (List.length (tables w))) (maps w)) (nextGoid w), [], inl tt).

(** case.go:20-25, the deferred call *)
Definition leaveCase (g : Z) (w : world) : world := mkWorld (tables w) (DeleteGls g (maps w)) (nextGoid w).

(** case.go:13-28: the function made by Case, called with t by goroutine g.  The context is not used. *)
Definition Case (g : Z) (testCase : comp unit) (t : Z) : comp unit :=
  enterCase g t ;;;
  (fun w => match testCase w with (w, e, r) => (leaveCase g w, e, r) end).

(** case.go:30-36: t.Skip ends the goroutine by Goexit *)
Definition Skip (g : Z) : comp unit := t <- CurrentT g ;; emit g (Skips t) ;;; abort Goexit.

(** ** What the checks share *)

(** test/testify/assert/assertions.go:228-255: Fail calls t.Errorf with the message and returns false. *)
Definition Fail (g t : Z) : comp bool := emit g (Errors t OfAssert) ;;; ret false.

(** t.Fatal of package testing: logs, marks t as failed, and Goexit; must/nil.go:17, 20 *)
Definition tFatal {A} (g t : Z) (x : text) : comp A := emit g (Fatals t x) ;;; abort Goexit.
(** t.Error, t.Errorf of package testing: logs and marks t as failed; should/nil.go:17, 20 *)
Definition tError (g t : Z) (x : text) : comp unit := emit g (Errors t x).

(** assertions.go:383-395; IsNil of package reflect *)
Definition isNil (object : iface) : bool :=
  match object with
  | INil => true
  | IVal _ kind data => (KChan <=? kind) && (kind <=? KSlice) && (data =? 0)
  end.

(** assertions.go:400-405 *)
Definition assertNil (g t : Z) (object : iface) : comp bool := if isNil object then ret true else Fail g t.
(** assertions.go:375-380 *)
Definition assertNotNil (g t : Z) (object : iface) : comp bool := if negb (isNil object) then ret true else Fail g t.
(** assertions.go:304-320 (the comparison itself is [eq], what validateEqualArgs and ObjectsAreEqual say); must/equal.go
    uses the same function of github.com/stretchr/testify. *)
Definition assertEqual (g t : Z) (eq : bool) : comp bool := if negb eq then Fail g t else ret true.
(** assertions.go:1031-1037; err is the interface *)
Definition assertNoError (g t : Z) (err : iface) : comp bool := match err with INil => ret true | _ => Fail g t end.

(** ** The checks.  ok is that of runtime.Caller(1). *)

(** must/nil.go:9-21, AssertNil is the same, 23-35 *)
Definition mustNil (g : Z) (ok : bool) (actual : iface) : comp unit :=
  t <- CurrentT g ;; b <- assertNil g t actual ;;
  if b then ret tt else if negb ok then tFatal g t CheckFailed else tFatal g t FailedLines.
(** must/nil.go:37-49, AssertNotNil is the same, 51-62 *)
Definition mustNotNil (g : Z) (ok : bool) (actual : iface) : comp unit :=
  t <- CurrentT g ;; b <- assertNotNil g t actual ;;
  if b then ret tt else if negb ok then tFatal g t CheckFailed else tFatal g t FailedLines.
(** should/nil.go:9-21, AssertNil is the same, 23-35 *)
Definition shouldNil (g : Z) (ok : bool) (actual : iface) : comp unit :=
  t <- CurrentT g ;; b <- assertNil g t actual ;;
  if b then ret tt else if negb ok then tError g t CheckFailed else tError g t FailedLines.
(** should/nil.go:37-49, AssertNotNil is the same, 51-62 *)
Definition shouldNotNil (g : Z) (ok : bool) (actual : iface) : comp unit :=
  t <- CurrentT g ;; b <- assertNotNil g t actual ;;
  if b then ret tt else if negb ok then tError g t CheckFailed else tError g t FailedLines.

(** must/equal.go:10-22, AssertEqual is the same, 25-37 *)
Definition mustEqual (g : Z) (ok eq : bool) : comp unit :=
  t <- CurrentT g ;; b <- assertEqual g t eq ;;
  if b then ret tt else if negb ok then tFatal g t CheckFailed else tFatal g t FailedLines.
(** should/equal.go:10-22, AssertEqual is the same, 25-37 *)
Definition shouldEqual (g : Z) (ok eq : bool) : comp unit :=
  t <- CurrentT g ;; b <- assertEqual g t eq ;;
  if b then ret tt else if negb ok then tError g t CheckFailed else tError g t FailedLines.

(** must/pass.go:36-39, should/pass.go:19-22, 37-40: each key is of type string, and has a value; the text is spew's. *)
Fixpoint kvLoop (g t : Z) (kv : list iface) : comp unit :=
  match kv with
  | [] => ret tt
  | IVal ty _ _ :: kv =>
    if ty =? stringType then
      match kv with
      | [] => abort (Panics runtimeError)
      | _ :: kv => tError g t KeyValue ;;; kvLoop g t kv
      end
    else abort (Panics runtimeError)
  | INil :: kv => abort (Panics runtimeError)
  end.

(** must/pass.go:10-22; kv is not used *)
Definition mustAssert (g : Z) (ok result : bool) (kv : list iface) : comp unit :=
  if result then ret tt else
  t <- CurrentT g ;; if negb ok then tFatal g t CheckFailed else tFatal g t FailedLines.
(** must/pass.go:25-41 *)
Definition mustPass (g : Z) (ok result : bool) (kv : list iface) : comp unit :=
  if result then ret tt else
  t <- CurrentT g ;; if negb ok then tFatal g t CheckFailed else kvLoop g t kv ;;; tFatal g t FailedLines.
(** should/pass.go:10-25, Pass is the same, 28-43 *)
Definition shouldPass (g : Z) (ok result : bool) (kv : list iface) : comp unit :=
  if negb result then
    t <- CurrentT g ;; if negb ok then tError g t CheckFailed else kvLoop g t kv ;;; tError g t FailedLines
  else ret tt.

(** What recover() gives in a function deferred before f was called: the value of the panic, nil if there is none
    (f returned, or Goexit is being executed), nil for panic(nil) (before Go 1.21).  must/panic.go:18. *)
Definition recovered (r : unit + abrupt) : iface := match r with inr (Panics v) => v | _ => INil end.

(** must/panic.go:17-25, should/panic.go:17-25: f is called, then the deferred function, which recovers from a panic,
    but does not stop a Goexit; [report] is line 22. *)
Definition panicCheck (g t : Z) (report : comp unit) (f : comp unit) : comp iface := fun w =>
  match f w with
  | (w, e, r) =>
    match (b <- assertNotNil g t (recovered r) ;; if b then ret tt else report) w with
    | (w, e', inl _) => (w, e ++ e', match r with inr Goexit => inr Goexit | _ => inl (recovered r) end)
    | (w, e', inr a) => (w, e ++ e', inr a)
    end
  end.

(** must/panic.go:9-26 *)
Definition mustPanic (g : Z) (ok : bool) (f : comp unit) : comp iface :=
  t <- CurrentT g ;;
  if negb ok then tFatal g t CheckFailed else panicCheck g t (tFatal g t FailedLines) f.
(** should/panic.go:9-26 *)
Definition shouldPanic (g : Z) (ok : bool) (f : comp unit) : comp iface :=
  t <- CurrentT g ;;
  if negb ok then tError g t CheckFailed ;;; ret INil else panicCheck g t (tError g t FailedLines) f.

(** ** Test programs *)

(** What a test does that matters here: the checks; Panic with a function; a step of its own; panic(v); Goexit;
    Case called by the goroutine itself; a function made by gls.WithGls called by the goroutine itself (gls.go:54-73);
    the start of a goroutine for f, or for gls.WithGls(f); t.Run(name, test.Case(f)), which runs it in a goroutine of
    its own with its own t.  case.go:13-44, the files of must and should. *)
Inductive check :=
| CNil (v : iface) | CNotNil (v : iface) | CEqual (eq : bool) | CAssert (b : bool) (kv : list iface) | CPass (b : bool) (kv : list iface).
(** As check: case.go:13-44 *)
Inductive stmt :=
| SCheck (must ok : bool) (c : check)
| SPanic (must ok : bool) (f : list stmt)
| SMark (n : Z)
| SThrow (v : iface)
| SExit
| SSkip
| SCase (t : Z) (f : list stmt)
| SWithGls (f : list stmt)
| SGo (inherits : bool) (f : list stmt)
| SRun (t : Z) (f : list stmt).

(** The check of a package: must is package must, else should: must/nil.go:10-62, must/equal.go:10-37, must/pass.go:9-41, and the same files
    of should *)
Definition runCheck (g : Z) (must ok : bool) (c : check) : comp unit :=
  match must, c with
  | true, CNil v => mustNil g ok v
  | false, CNil v => shouldNil g ok v
  | true, CNotNil v => mustNotNil g ok v
  | false, CNotNil v => shouldNotNil g ok v
  | true, CEqual b => mustEqual g ok b
  | false, CEqual b => shouldEqual g ok b
  | true, CAssert b kv => mustAssert g ok b kv
  | false, CAssert b kv => shouldPass g ok b kv
  | true, CPass b kv => mustPass g ok b kv
  | false, CPass b kv => shouldPass g ok b kv
  end.

(** gls.go:54-73, with a function that is called at once by the same goroutine: the copy of the map (a *testing.T is
    not copiable), ResetGls, f, and the deferred DeleteGls. *)
Definition glsCopy (w : world) (parent : option nat) : table := copyTable (fun _ => None) (tables w) parent.
(** gls.go:67-72: the function that WithGls returns, with the map childGls *)
Definition withTable (g : Z) (childGls : table) (f : comp unit) : comp unit := fun w =>
  let w' := mkWorld (tables w ++ [childGls]) (ResetGls g (Some (List.length (tables w))) (maps w)) (nextGoid w) in
  match f w' with (w, e, r) => (leaveCase g w, e, r) end.

(** A goroutine of its own, with a new id: go f().  It is run to its end at once: goroutines meet in nothing but the
    calls of the methods of t, so what each of them does does not depend on the others; see the theorems about
    the effects of one goroutine.  case.go:15. *)
Definition spawn (f : Z -> comp unit) : comp unit := fun w =>
  let g := nextGoid w in
  match f g (mkWorld (tables w) (maps w) (g + 1)) with
  | (w, e, r) => (w, e ++ [(g, match r with inr (Panics v) => Crashes v | _ => Ends end)], inl tt)
  end.

(** A test program, run by goroutine g: case.go:26 *)
Fixpoint exec (g : Z) (s : stmt) : comp unit :=
  let block g := fix block (l : list stmt) : comp unit :=
    match l with [] => ret tt | s :: l => exec g s ;;; block l end in
  match s with
  | SCheck must ok c => runCheck g must ok c
  | SPanic must ok f => (if must then mustPanic g ok (block g f) else shouldPanic g ok (block g f)) ;;; ret tt
  | SMark n => emit g (Marks n)
  | SThrow v => abort (Panics v)
  | SExit => abort Goexit
  | SSkip => Skip g
  | SCase t f => Case g (block g f) t
  | SWithGls f => fun w => withTable g (glsCopy w (GetGls g (maps w))) (block g f) w
  | SGo true f => fun w => let childGls := glsCopy w (GetGls g (maps w)) in
      spawn (fun g' => withTable g' childGls (block g' f)) w
  | SGo false f => spawn (fun g' => block g' f)
  | SRun t f => spawn (fun g' => Case g' (block g' f) t)
  end.

(** case.go:26: the body of a function *)
Definition block (g : Z) : list stmt -> comp unit := fix block (l : list stmt) : comp unit :=
  match l with [] => ret tt | s :: l => exec g s ;;; block l end.

(** ** must.Call, should.Call and Set *)
Section Call.
  (** reflect.Type as a number; the parts of package reflect that call.go uses: AssignableTo, Implements(errorType),
      the kind of a type, the zero value of a type (for reflect.New(t).Elem(), call.go:20), the element type of a
      slice or pointer type. *)
  Variable assignable : Z -> Z -> bool.
  Variable implementsError : Z -> bool.
  Variable kindOf : Z -> Z.
  Variable elemOf : Z -> Z.

  (** reflect.Value: the zero Value; or a value with its static type.  For a static interface type, the dynamic value
      (an interface{}) is kept; for the others the data.  call.go:17-28. *)
  Inductive rvalue := RInvalid | RVal (ty data : Z) | RIface (ty : Z) (v : iface).

  (** reflect.ValueOf: call.go:15, 22, 50 *)
  Definition ValueOf (v : iface) : rvalue := match v with INil => RInvalid | IVal ty _ data => RVal ty data end.
  (** Value.Interface: call.go:28, 31 *)
  Definition Interface (v : rvalue) : iface :=
    match v with RInvalid => INil | RVal ty data => IVal ty (kindOf ty) data | RIface _ v => v end.
  (** As KChan: the kind of an interface type *)
  Definition KInterface : Z := 20.
  (** reflect.New(t).Elem(): call.go:20; the zero value of a type has data 0 *)
  Definition zeroOf (ty : Z) : rvalue := if kindOf ty =? KInterface then RIface ty INil else RVal ty 0.
  (** Value.Type: call.go:30; never called here for the zero Value *)
  Definition typeOf (v : rvalue) : Z := match v with RInvalid => 0 | RVal ty _ => ty | RIface ty _ => ty end.

  (** A function: its parameter types, whether it is variadic (then the last one is a slice), its result types, and
      what it does with the arguments (the last one a list for a variadic one): it returns values of its result types,
      or ends abruptly.  call.go:25. *)
  Record func := mkFunc { params : list Z; variadic : bool; results : list Z; body : list rvalue -> list rvalue -> comp (list rvalue) }.

  (** Value.Call of package reflect, call.go:25: the checks of the arguments, then the call, with the fixed arguments and
      the variadic ones; assigning to an interface type keeps the dynamic value. *)
  Definition assignTo (ty : Z) (v : rvalue) : rvalue := if kindOf ty =? KInterface then RIface ty (Interface v) else match v with RVal _ d => RVal ty d | _ => v end.
  (** As reflectCall *)
  Fixpoint assignAll (tys : list Z) (vs : list rvalue) : option (list rvalue) :=
    match tys, vs with
    | ty :: tys, v :: vs =>
      if assignable (typeOf v) ty then option_map (cons (assignTo ty v)) (assignAll tys vs) else None
    | [], [] => Some []
    | _, _ => None
    end.
  (** Value.Call of package reflect: call.go:25, should/call.go:19 *)
  Definition reflectCall (f : func) (args : list rvalue) : comp (list rvalue) :=
    let n := if variadic f then (List.length (params f) - 1)%nat else List.length (params f) in
    if (List.length args <? n)%nat then abort (Panics runtimeError) else
    if negb (variadic f) && (n <? List.length args)%nat then abort (Panics runtimeError) else
    if existsb (fun v => match v with RInvalid => true | _ => false end) args then abort (Panics runtimeError) else
    match assignAll (firstn n (params f)) (firstn n args) with
    | None => abort (Panics runtimeError)
    | Some fixed =>
      let elem := elemOf (nth n (params f) 0) in
      let rest := skipn n args in
      match assignAll (repeat elem (List.length rest)) rest with
      | None => abort (Panics runtimeError)
      | Some extra => body f fixed extra
      end
    end.

  (** must/call.go:18-24; In(i) panics for an index out of range *)
  Fixpoint mustArgs (f : func) (i : nat) (argObjs : list iface) : option (list rvalue) :=
    match argObjs with
    | [] => Some []
    | argObj :: argObjs =>
      match argObj with
      | INil =>
        match nth_error (params f) i with
        | None => None
        | Some ty => option_map (cons (zeroOf ty)) (mustArgs f (S i) argObjs)
        end
      | IVal _ _ _ => option_map (cons (ValueOf argObj)) (mustArgs f (S i) argObjs)
      end
    end.

  (** must/call.go:26-45, should/call.go:20-39, after the call; [report] is t.Fatal or t.Error *)
  Definition callResult (g : Z) (ok : bool) (report : Z -> text -> comp unit) (retVals : list rvalue) : comp (list iface) :=
    let retObjs := map Interface retVals in
    if (0 <? List.length retVals)%nat && implementsError (typeOf (last retVals RInvalid)) then
      let err := Interface (last retVals RInvalid) in
      t <- CurrentT g ;; b <- assertNoError g t err ;;
      if b then ret retObjs else
      (if negb ok then report t CheckFailed else report t FailedLines) ;;; ret retObjs
    else ret retObjs.

  (** must/call.go:14-46.  f is a function: for anything else, Type, In or Call panic. *)
  Definition mustCall (g : Z) (ok : bool) (f : func) (argObjs : list iface) : comp (list iface) :=
    match mustArgs f 0 argObjs with
    | None => abort (Panics runtimeError)
    | Some argVals => retVals <- reflectCall f argVals ;; callResult g ok (fun t x => tFatal g t x) retVals
    end.
  (** should/call.go:14-40 *)
  Definition shouldCall (g : Z) (ok : bool) (f : func) (argObjs : list iface) : comp (list iface) :=
    retVals <- reflectCall f (map ValueOf argObjs) ;; callResult g ok (tError g) retVals.

  (** Variables: the pointer is the address, each variable has a type and holds a value; call.go:50. *)
  Definition store := Z -> rvalue.
  (** must/call.go:48-52, should/call.go:42-46: the variables after Set, and whether it panicked.  Elem panics unless
      obj is a pointer; Set panics for the nil pointer, the zero Value, and a type that is not assignable. *)
  Fixpoint SetLoop (retObjs : list iface) (i : nat) (objs : list iface) (m : store) : store * bool :=
    match objs with
    | [] => (m, false)
    | obj :: objs =>
      match obj with
      | INil => (m, true)
      | IVal ty kind p =>
        if negb (kind =? KPtr) then (m, true) else
        match nth_error retObjs i with
        | None => (m, true)
        | Some v =>
          if p =? 0 then (m, true) else
          match ValueOf v with
          | RInvalid => (m, true)
          | x => if assignable (typeOf x) (elemOf ty) then SetLoop retObjs (S i) objs (upd m p (assignTo (elemOf ty) x)) else (m, true)
          end
        end
      end
    end.
  (** must/call.go:48-52, should/call.go:42-46 *)
  Definition Set_ (retObjs : list iface) (objs : list iface) (m : store) : store * bool := SetLoop retObjs 0 objs m.
End Call.
