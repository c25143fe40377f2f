(** Model of test/testify/assert/assertions.go: the assertions, what they report and what they say.  Citations without a file name
    are to assertions.go.  Of package reflect only what the assertions use; DeepEqual, ConvertibleTo, Convert and the equality of interfaces and keys
    are parameters. *)
From Verif Require Import Base JsonFloatModel.
From Flocq Require Import IEEE754.Binary IEEE754.Bits.
Open Scope Z_scope.
Open Scope list_scope.

(** ** Values *)

(** A value in an interface{} with its type and kind (numbers of package reflect).  Predeclared types have the number of their kind; [VBytes] is a
    value of type []byte; None is nil for slices, maps, channels and pointers.  An element of a list or map is what Index(i).Interface() (571, 647),
    MapKeys and MapIndex give.  Channels have a number of buffered elements.  [VOther]: booleans, complex numbers, functions, structs, unsafe.Pointer. *)
Inductive gval :=
| VInt (ty kind n : Z)
| VFloat (ty kind : Z) (f : binary64)
| VStr (ty : Z) (s : bytes)
| VArr (ty : Z) (l : list (option gval))
| VSlice (ty : Z) (l : option (list (option gval)))
| VBytes (b : option bytes)
| VMap (ty : Z) (l : option (list (option gval * option gval)))
| VChan (ty : Z) (n : option nat)
| VPtr (ty : Z) (p : option Z)
| VOther (ty kind id : Z).
(** interface{}: 39 *)
Definition iface := option gval.

(** The type []byte: 44-45 *)
Definition bytesType : Z := 51.
(** time.Duration: 871 *)
Definition durationType : Z := 52.
(** reflect.TypeOf: 64, 361-362 *)
Definition typeOf (v : gval) : Z :=
  match v with
  | VInt ty _ _ | VFloat ty _ _ | VStr ty _ | VArr ty _ | VSlice ty _ | VMap ty _ | VChan ty _ | VPtr ty _ | VOther ty _ _ => ty
  | VBytes _ => bytesType
  end.
(** reflect.Kind: 417-432, 556-560, 635-644 *)
Definition kindOf (v : gval) : Z :=
  match v with
  | VInt _ k _ | VFloat _ k _ | VOther _ k _ => k
  | VStr _ _ => 24 | VArr _ _ => 17 | VSlice _ _ | VBytes _ => 23 | VMap _ _ => 21 | VChan _ _ => 18 | VPtr _ _ => 22
  end.
(** The elements of an array or slice, Len and Index: 570-571, 646-647 *)
Definition items (v : gval) : option (list iface) :=
  match v with
  | VArr _ l => Some l
  | VSlice _ l => Some (match l with Some l => l | None => [] end)
  | VBytes b => Some (map (fun c => Some (VInt 8 8 c)) (match b with Some b => b | None => [] end))
  | _ => None
  end.
(** Whether Kind is Array or Slice: 638-644, 679-685, 714-720 *)
Definition isList (v : gval) : bool := match items v with Some _ => true | None => false end.

(** ** What an assertion does: it reports n times to t (t.Errorf) and returns, or panics, or ends the goroutine, or never ends. *)
(** The end of an assertion: 228-241 *)
Inductive res (A : Type) := Ret (n : nat) (x : A) | Pan (n : nat) | Exit (n : nat) | Hang (n : nat).
Arguments Ret {A} n x. Arguments Pan {A} n. Arguments Exit {A} n. Arguments Hang {A} n.
(** More reports before: sequencing, as in 238-240 *)
Definition after {A} (k : nat) (r : res A) : res A :=
  match r with Ret n x => Ret (k + n) x | Pan n => Pan (k + n) | Exit n => Exit (k + n) | Hang n => Hang (k + n) end.
(** Sequencing, as in 1060-1062 *)
Definition bind {A B} (r : res A) (f : A -> res B) : res B :=
  match r with Ret n x => after n (f x) | Pan n => Pan n | Exit n => Exit n | Hang n => Hang n end.

(** ** The report *)
(** bytes.Buffer and strings: the lines of bufio.Scanner (193): ScanLines gives the text up to a newline, without a carriage return before
    it, and what is left at the end if it is not empty *)
Fixpoint splitLine (m : bytes) : bytes * option bytes :=
  match m with
  | [] => ([], None)
  | c :: m => if c =? 10 then ([], Some m) else let (l, r) := splitLine m in (c :: l, r)
  end.
(** bufio's dropCR: 193 *)
Definition dropCR (l : bytes) : bytes :=
  match rev l with c :: r => if c =? 13 then rev r else l | [] => l end.
(** bufio.MaxScanTokenSize (193): a line that does not fit in the buffer with its newline, or fills it, stops the Scanner; its error
    is not looked at *)
Definition maxTokenSize : nat := Z.to_nat 65536.
(** The texts of scanner.Text() (193-200); the fuel is the length of the message *)
Fixpoint scan (fuel : nat) (m : bytes) : list bytes :=
  match fuel, m with
  | O, _ | _, [] => []
  | S fuel, _ =>
    let (l, r) := splitLine m in
    if (maxTokenSize <=? List.length l)%nat then []
    else dropCR l :: match r with Some r => scan fuel r | None => [] end
  end.
(** strings.Repeat(" ", n): 197 *)
Definition spaces (n : nat) : bytes := repeat 32 n.
(** assertions.go:193-200: the loop, i counts the lines *)
Fixpoint indentLoop (longestLabelLen : nat) (i : nat) (texts : list bytes) (outBuf : bytes) : bytes :=
  match texts with
  | [] => outBuf
  | x :: texts =>
    let outBuf := if (i =? 0)%nat then outBuf else outBuf ++ [10; 13; 9] ++ spaces (longestLabelLen + 1) ++ [9] in
    indentLoop longestLabelLen (S i) texts (outBuf ++ x)
  end.
(** assertions.go:190-203 *)
Definition indentMessageLines (message : bytes) (longestLabelLen : nat) : bytes :=
  indentLoop longestLabelLen 0 (scan (List.length message) message) [].
(** assertions.go:258-263 *)
Definition longest (content : list (bytes * bytes)) : nat :=
  fold_left (fun n v => if (n <? List.length (fst v))%nat then List.length (fst v) else n) content 0%nat.
(** assertions.go:257-269 *)
Definition labeledOutput (content : list (bytes * bytes)) : bytes :=
  let longestLabel := longest content in
  fold_left (fun output v =>
    output ++ [13; 9] ++ fst v ++ [58] ++ spaces (longestLabel - List.length (fst v)) ++ [9] ++ indentMessageLines (snd v) longestLabel ++ [10])
    content [].
(** assertions.go:160-171: caller is what runtime.Caller(1) gives; the file without its directories, and the line in digits *)
Definition getWhitespaceString (caller : option (bytes * bytes)) : bytes :=
  match caller with
  | None => []
  | Some (file, line) => spaces (List.length (file ++ [58] ++ line ++ [58] ++ spaces 8))
  end.

Section Assertions.
  (** fmt.Sprintf: 181 *)
  Variable sprintf : bytes -> list iface -> bytes.
  (** The type string: .(string) at 178, 181 *)
  Definition asString (v : iface) : option bytes := match v with Some (VStr ty s) => if ty =? 24 then Some s else None | _ => None end.
  (** assertions.go:173-184; None: the type assertion panics *)
  Definition messageFromMsgAndArgs (msgAndArgs : list iface) : option bytes :=
    match msgAndArgs with
    | [] => Some []
    | [m] => asString m
    | m :: args => match asString m with Some f => Some (sprintf f args) | None => None end
    end.
  (** assertions.go:228-241: the text given to t.Errorf; None: a panic *)
  Definition failText (caller : option (bytes * bytes)) (failureMessage : bytes) (msgAndArgs : list iface) : option bytes :=
    match messageFromMsgAndArgs msgAndArgs with
    | None => None
    | Some message =>
      let content := [(bs "Error", failureMessage)] in
      let content := if (0 <? List.length message)%nat then content ++ [(bs "Messages", message)] else content in
      Some ([13] ++ getWhitespaceString caller ++ labeledOutput content)
    end.
  (** assertions.go:228-241: what it does; the failure message is not modelled *)
  Definition Fail (msgAndArgs : list iface) : res bool :=
    match messageFromMsgAndArgs msgAndArgs with None => Pan 0 | Some _ => Ret 1 false end.
  (** if !b { Fail; } return b, as in 441-446, 458-463, 758-761 *)
  Definition passOr (msgAndArgs : list iface) (pass : bool) : res bool :=
    if pass then Ret 0 true else bind (Fail msgAndArgs) (fun _ => Ret 0 false).

  (** ** Equality *)
  (** reflect.DeepEqual of two values that are not nil: 53 *)
  Variable deq : gval -> gval -> bool.
  (** bytes.Equal: 51 *)
  Fixpoint bytesEqual (a b : bytes) : bool :=
    match a, b with [], [] => true | x :: a, y :: b => (x =? y) && bytesEqual a b | _, _ => false end.
  (** assertions.go:39-55 *)
  Definition ObjectsAreEqual (expected actual : iface) : bool :=
    match expected, actual with
    | None, None => true
    | None, _ | _, None => false
    | Some (VBytes exp), Some act =>
      match act with
      | VBytes act =>
        match exp, act with
        | None, None => true
        | None, _ | _, None => false
        | Some exp, Some act => bytesEqual exp act
        end
      | _ => false
      end
    | Some expected, Some actual => deq expected actual
    end.
  (** reflect's ConvertibleTo and Convert: 69-71 *)
  Variable convertible : Z -> Z -> bool.
  Variable convert : gval -> Z -> gval.
  (** assertions.go:59-75 *)
  Definition ObjectsAreEqualValues (expected actual : iface) : bool :=
    if ObjectsAreEqual expected actual then true else
    match actual with
    | None => false
    | Some act =>
      match expected with
      | None => false
      | Some exp => if convertible (typeOf exp) (typeOf act) then deq (convert exp (typeOf act)) act else false
      end
    end.
  (** assertions.go:1235-1240 *)
  Definition isFunction (arg : iface) : bool := match arg with None => false | Some v => kindOf v =? 19 end.
  (** assertions.go:1228-1233 *)
  Definition validateEqualArgs (expected actual : iface) : bool := negb (isFunction expected || isFunction actual).
  (** assertions.go:304-320; the failure message, with the diff, is not modelled *)
  Definition Equal (expected actual : iface) (msgAndArgs : list iface) : res bool :=
    if negb (validateEqualArgs expected actual) then Fail msgAndArgs else
    if negb (ObjectsAreEqual expected actual) then Fail msgAndArgs else Ret 0 true.
  (** assertions.go:527-539 *)
  Definition NotEqual (expected actual : iface) (msgAndArgs : list iface) : res bool :=
    if negb (validateEqualArgs expected actual) then Fail msgAndArgs else
    if ObjectsAreEqual expected actual then Fail msgAndArgs else Ret 0 true.
  (** assertions.go:342-354 *)
  Definition EqualValues (expected actual : iface) (msgAndArgs : list iface) : res bool :=
    if negb (ObjectsAreEqualValues expected actual) then Fail msgAndArgs else Ret 0 true.
  (** Two types: nil for nil; 364 *)
  Definition sameType (a b : iface) : bool :=
    match a, b with None, None => true | Some a, Some b => typeOf a =? typeOf b | _, _ => false end.
  (** assertions.go:359-370 *)
  Definition Exactly (expected actual : iface) (msgAndArgs : list iface) : res bool :=
    if negb (sameType expected actual) then Fail msgAndArgs else Equal expected actual msgAndArgs.

  (** ** Empty, Zero, Len *)
  (** reflect.Zero: 430, 1120 *)
  Variable zero : Z -> gval.
  (** What pointers point to: Elem().Interface(), 426 *)
  Variable memory : Z -> iface.
  (** assertions.go:408-433.  None: no result within [fuel] nested calls *)
  Fixpoint isEmpty (fuel : nat) (object : iface) : option bool :=
    match fuel with
    | O => None
    | S fuel =>
      match object with
      | None => Some true
      | Some v =>
        match v with
        | VArr _ l => Some (List.length l =? 0)%nat
        | VChan _ n => Some (match n with Some n => n =? 0 | None => true end)%nat
        | VMap _ l => Some (match l with Some l => List.length l =? 0 | None => true end)%nat
        | VSlice _ l => Some (match l with Some l => List.length l =? 0 | None => true end)%nat
        | VBytes b => Some (match b with Some b => List.length b =? 0 | None => true end)%nat
        | VPtr _ None => Some true
        | VPtr _ (Some p) => isEmpty fuel (memory p)
        | v => Some (deq v (zero (typeOf v)))
        end
      end
    end.
  (** assertions.go:439-448 *)
  Definition Empty (fuel : nat) (object : iface) (msgAndArgs : list iface) : res bool :=
    match isEmpty fuel object with Some pass => passOr msgAndArgs pass | None => Hang 0 end.
  (** assertions.go:456-465 *)
  Definition NotEmpty (fuel : nat) (object : iface) (msgAndArgs : list iface) : res bool :=
    match isEmpty fuel object with Some empty => passOr msgAndArgs (negb empty) | None => Hang 0 end.
  (** assertions.go:469-477: None if reflect's Len panics, which getLen recovers from *)
  Definition getLen (x : iface) : option nat :=
    match x with
    | Some (VStr _ s) => Some (List.length s)
    | Some (VMap _ l) => Some (match l with Some l => List.length l | None => 0%nat end)
    | Some (VChan _ n) => Some (match n with Some n => n | None => 0%nat end)
    | Some v => option_map (@List.length iface) (items v)
    | None => None
    end.
  (** assertions.go:483-493 *)
  Definition Len (object : iface) (length : Z) (msgAndArgs : list iface) : res bool :=
    match getLen object with
    | None => Fail msgAndArgs
    | Some l => if negb (Z.of_nat l =? length) then Fail msgAndArgs else Ret 0 true
    end.
  (** assertions.go:1119-1124 *)
  Definition Zero (i : iface) (msgAndArgs : list iface) : res bool :=
    match i with
    | None => Ret 0 true
    | Some v => if negb (deq v (zero (typeOf v))) then Fail msgAndArgs else Ret 0 true
    end.
  (** assertions.go:1127-1132 *)
  Definition NotZero (i : iface) (msgAndArgs : list iface) : res bool :=
    match i with
    | None => Fail msgAndArgs
    | Some v => if deq v (zero (typeOf v)) then Fail msgAndArgs else Ret 0 true
    end.

  (** ** Contains *)
  (** reflect.Type's String: 557 *)
  Variable typeName : Z -> bytes.
  (** reflect.Value's String of ValueOf(element): 557 *)
  Definition valueString (element : iface) : bytes :=
    match element with
    | None => bs "<invalid Value>"
    | Some (VStr _ s) => s
    | Some v => bs "<" ++ typeName (typeOf v) ++ bs " Value>"
    end.
  (** strings.HasPrefix: in 557 *)
  Fixpoint hasPrefix (s sub : bytes) : bool :=
    match sub, s with [], _ => true | c :: sub, d :: s => (c =? d) && hasPrefix s sub | _ :: _, [] => false end.
  (** strings.Contains: 557 *)
  Fixpoint containsSub (s sub : bytes) : bool :=
    hasPrefix s sub || match s with [] => false | _ :: s => containsSub s sub end.
  (** assertions.go:562-566, 570-574: the loop over keys or elements *)
  Fixpoint anyEqual (l : list iface) (element : iface) : bool :=
    match l with [] => false | x :: l => if ObjectsAreEqual x element then true else anyEqual l element end.
  (** assertions.go:545-577: (ok, found).  A nil list panics at 556, Len and Index at 570-571; these are recovered from *)
  Definition includeElement (whole element : iface) : bool * bool :=
    match whole with
    | None => (false, false)
    | Some (VStr _ s) => (true, containsSub s (valueString element))
    | Some (VMap _ l) => (true, anyEqual (map fst (match l with Some l => l | None => [] end)) element)
    | Some (VChan _ n) => match n with None | Some O => (true, false) | _ => (false, false) end
    | Some v => match items v with Some l => (true, anyEqual l element) | None => (false, false) end
    end.
  (** assertions.go:585-597 *)
  Definition Contains (s contains : iface) (msgAndArgs : list iface) : res bool :=
    let (ok, found) := includeElement s contains in
    if negb ok then Fail msgAndArgs else if negb found then Fail msgAndArgs else Ret 0 true.
  (** assertions.go:605-617 *)
  Definition NotContains (s contains : iface) (msgAndArgs : list iface) : res bool :=
    let (ok, found) := includeElement s contains in
    if negb ok then Fail msgAndArgs else if found then Fail msgAndArgs else Ret 0 true.

  (** ** Subset *)
  (** assertions.go:629-633, 670-674: the deferred function *)
  Definition recoverFalse (r : res bool) : res bool := match r with Pan n => Ret n false | r => r end.
  (** assertions.go:646-657 *)
  Fixpoint subsetLoop (whole : iface) (subset : list iface) (msgAndArgs : list iface) : res bool :=
    match subset with
    | [] => Ret 0 true
    | element :: subset =>
      let (ok, found) := includeElement whole element in
      if negb ok then Fail msgAndArgs else if negb found then Fail msgAndArgs else subsetLoop whole subset msgAndArgs
    end.
  (** assertions.go:623-658 *)
  Definition Subset (whole subset : iface) (msgAndArgs : list iface) : res bool :=
    match subset with
    | None => Ret 0 true
    | Some sv =>
      recoverFalse match whole with
      | None => Pan 0
      | Some lv =>
        if negb (isList lv) then Fail msgAndArgs else
        match items sv with None => Fail msgAndArgs | Some l => subsetLoop whole l msgAndArgs end
      end
    end.
  (** assertions.go:687-698 *)
  Fixpoint notSubsetLoop (whole : iface) (subset : list iface) (msgAndArgs : list iface) : res bool :=
    match subset with
    | [] => Fail msgAndArgs
    | element :: subset =>
      let (ok, found) := includeElement whole element in
      if negb ok then Fail msgAndArgs else if negb found then Ret 0 true else notSubsetLoop whole subset msgAndArgs
    end.
  (** assertions.go:664-699 *)
  Definition NotSubset (whole subset : iface) (msgAndArgs : list iface) : res bool :=
    match subset with
    | None => Fail msgAndArgs
    | Some sv =>
      recoverFalse match whole with
      | None => Pan 0
      | Some lv =>
        if negb (isList lv) then Fail msgAndArgs else
        match items sv with None => Fail msgAndArgs | Some l => notSubsetLoop whole l msgAndArgs end
      end
    end.

  (** ** ElementsMatch *)
  (** assertions.go:737-746: the first element of b that is not marked and equal is marked; None: there is none *)
  Fixpoint markOne (b : list (iface * bool)) (element : iface) : option (list (iface * bool)) :=
    match b with
    | [] => None
    | (x, visited) :: b =>
      if visited then option_map (cons (x, visited)) (markOne b element)
      else if ObjectsAreEqual x element then Some ((x, true) :: b)
      else option_map (cons (x, visited)) (markOne b element)
    end.
  (** assertions.go:734-752 *)
  Fixpoint matchLoop (a : list iface) (b : list (iface * bool)) (msgAndArgs : list iface) : res bool :=
    match a with
    | [] => Ret 0 true
    | element :: a =>
      match markOne b element with
      | None => Fail msgAndArgs
      | Some b => matchLoop a b msgAndArgs
      end
    end.
  (** assertions.go:706-753.  The kind of nil is a panic, not recovered from *)
  Definition ElementsMatch (fuel : nat) (listA listB : iface) (msgAndArgs : list iface) : res bool :=
    let rest :=
      match listA, listB with
      | Some a, Some b =>
        match items a with
        | None => Fail msgAndArgs
        | Some la =>
          match items b with
          | None => Fail msgAndArgs
          | Some lb =>
            if negb (List.length la =? List.length lb)%nat then Fail msgAndArgs
            else matchLoop la (map (fun x => (x, false)) lb) msgAndArgs
          end
        end
      | _, _ => Pan 0
      end in
    match isEmpty fuel listA with
    | None => Hang 0
    | Some false => rest
    | Some true => match isEmpty fuel listB with None => Hang 0 | Some true => Ret 0 true | Some false => rest end
    end.

  (** ** Panics *)
  (** What a function does: 782 *)
  Inductive fend := FReturns | FPanics (v : iface) | FExits.
  (** == of interfaces; None: it panics, for values that cannot be compared; 812 *)
  Variable ifaceEq : iface -> iface -> option bool.
  (** assertions.go:769-788: Goexit runs the deferred function and goes on *)
  Definition didPanic (f : fend) : res (bool * iface) :=
    match f with
    | FReturns => Ret 0 (false, None)
    | FPanics v => Ret 0 (match v with Some _ => true | None => false end, v)
    | FExits => Exit 0
    end.
  (** assertions.go:793-800 *)
  Definition Panics (f : fend) (msgAndArgs : list iface) : res bool :=
    bind (didPanic f) (fun d => if negb (fst d) then Fail msgAndArgs else Ret 0 true).
  (** assertions.go:806-817 *)
  Definition PanicsWithValue (expected : iface) (f : fend) (msgAndArgs : list iface) : res bool :=
    bind (didPanic f) (fun d =>
      if negb (fst d) then Fail msgAndArgs else
      match ifaceEq (snd d) expected with
      | None => Pan 0
      | Some b => if negb b then Fail msgAndArgs else Ret 0 true
      end).
  (** assertions.go:822-829 *)
  Definition NotPanics (f : fend) (msgAndArgs : list iface) : res bool :=
    bind (didPanic f) (fun d => if fst d then Fail msgAndArgs else Ret 0 true).

  (** ** Times and numbers *)
  (** time.Time's Sub, which saturates (836); times are nanoseconds *)
  Definition timeSub (a b : Z) : Z := Z.max (- 2 ^ 63) (Z.min (2 ^ 63 - 1) (a - b)).
  (** -delta of an int64: 837 *)
  Definition negInt64 (d : Z) : Z := if d =? - 2 ^ 63 then d else - d.
  (** assertions.go:834-842 *)
  Definition WithinDuration (expected actual delta : Z) (msgAndArgs : list iface) : res bool :=
    let dt := timeSub expected actual in
    if (dt <? negInt64 delta) || (delta <? dt) then Fail msgAndArgs else Ret 0 true.

  (** assertions.go:844-878: the types of the switch; there is no uint *)
  Definition toFloat (x : iface) : option binary64 :=
    match x with
    | Some (VInt ty _ n) =>
      if existsb (Z.eqb ty) [8; 9; 10; 11; 2; 3; 4; 5; 6; durationType] then Some (f64 n 0) else None
    | Some (VFloat ty _ f) => if existsb (Z.eqb ty) [13; 14] then Some f else None
    | _ => None
    end.
  (** math.IsNaN: 892, 896 *)
  Definition isNaN (f : binary64) : bool := match f with B754_nan _ _ _ _ _ => true | _ => false end.
  (** assertions.go:883-906 *)
  Definition InDelta (expected actual : iface) (delta : binary64) (msgAndArgs : list iface) : res bool :=
    match toFloat expected, toFloat actual with
    | Some af, Some bf =>
      if isNaN af then Fail msgAndArgs else
      if isNaN bf then Fail msgAndArgs else
      let dt := b64_minus mode_NE af bf in
      if lt64 dt (b64_opp delta) || lt64 delta dt then Fail msgAndArgs else Ret 0 true
    | _, _ => Fail msgAndArgs
    end.
  (** assertions.go:919-926, 1011-1018: the loop over the elements of actual; Index of expected panics if it is shorter *)
  Fixpoint pairLoop (assertion : iface -> iface -> res bool) (actual expected : list iface) : res bool :=
    match actual with
    | [] => Ret 0 true
    | a :: actual =>
      match expected with
      | [] => Pan 0
      | e :: expected => bind (assertion a e) (fun result => if negb result then Ret 0 result else pairLoop assertion actual expected)
      end
    end.
  (** The slices of 910-917, 1002-1009 *)
  Definition asSlice (v : iface) : option (list iface) :=
    match v with Some v => if kindOf v =? 23 then items v else None | None => None end.
  (** assertions.go:909-927 *)
  Definition InDeltaSlice (expected actual : iface) (delta : binary64) (msgAndArgs : list iface) : res bool :=
    match asSlice expected, asSlice actual with
    | Some expectedSlice, Some actualSlice =>
      pairLoop (fun a e => InDelta a e delta msgAndArgs) actualSlice expectedSlice
    | _, _ => Fail msgAndArgs
    end.
  (** == of keys (false for NaN): 945-946 *)
  Variable keyEq : iface -> iface -> bool.
  (** MapIndex: 945-946 *)
  Definition mapIndex (l : list (iface * iface)) (k : iface) : option iface :=
    option_map snd (find (fun x => keyEq (fst x) k) l).
  (** Whether MapIndex does not panic for the keys of another map: 946 *)
  Variable keyAssignable : Z -> Z -> bool.
  (** assertions.go:944-967, over the keys of the expected map *)
  Fixpoint mapLoop (expectedTy actualTy : Z) (keys : list iface) (expected actual : list (iface * iface)) (delta : binary64) (msgAndArgs : list iface) : res bool :=
    match keys with
    | [] => Ret 0 true
    | k :: keys =>
      if negb (keyAssignable expectedTy actualTy) then Pan 0 else
      match mapIndex expected k with
      | None => Fail msgAndArgs
      | Some ev =>
        match mapIndex actual k with
        | None => Fail msgAndArgs
        | Some av => bind (InDelta ev av delta msgAndArgs) (fun b => if negb b then Ret 0 false else mapLoop expectedTy actualTy keys expected actual delta msgAndArgs)
        end
      end
    end.
  (** The maps of 931-938 *)
  Definition asMap (v : iface) : option (Z * list (iface * iface)) :=
    match v with Some (VMap ty l) => Some (ty, match l with Some l => l | None => [] end) | _ => None end.
  (** assertions.go:930-968 *)
  Definition InDeltaMapValues (expected actual : iface) (delta : binary64) (msgAndArgs : list iface) : res bool :=
    match asMap expected, asMap actual with
    | Some (et, em), Some (at_, am) =>
      if negb (List.length em =? List.length am)%nat then Fail msgAndArgs
      else mapLoop et at_ (map fst em) em am delta msgAndArgs
    | _, _ => Fail msgAndArgs
    end.
  (** == of floats: 975 *)
  Definition eq64 (a b : binary64) : bool := match b64_compare a b with Some Eq => true | _ => false end.
  (** assertions.go:970-984; None: an error *)
  Definition calcRelativeError (expected actual : iface) : option binary64 :=
    match toFloat expected with
    | None => None
    | Some af =>
      if eq64 af (f64 0 0) then None else
      match toFloat actual with
      | None => None
      | Some bf => Some (b64_div mode_NE (b64_abs (b64_minus mode_NE af bf)) (b64_abs af))
      end
    end.
  (** assertions.go:987-998 *)
  Definition InEpsilon (expected actual : iface) (epsilon : binary64) (msgAndArgs : list iface) : res bool :=
    match calcRelativeError expected actual with
    | None => Fail msgAndArgs
    | Some actualEpsilon => if lt64 epsilon actualEpsilon then Fail msgAndArgs else Ret 0 true
    end.
  (** assertions.go:1001-1019; the message arguments are not passed on at 1012 *)
  Definition InEpsilonSlice (expected actual : iface) (epsilon : binary64) (msgAndArgs : list iface) : res bool :=
    match asSlice expected, asSlice actual with
    | Some expectedSlice, Some actualSlice =>
      pairLoop (fun a e => InEpsilon a e epsilon []) actualSlice expectedSlice
    | _, _ => Fail msgAndArgs
    end.

  (** ** Errors and the rest *)
  (** An error: nil, or the text of Error(): 1031, 1064 *)
  Definition gerror := option bytes.
  (** assertions.go:1031-1037 *)
  Definition NoError (err : gerror) (msgAndArgs : list iface) : res bool :=
    match err with Some _ => Fail msgAndArgs | None => Ret 0 true end.
  (** assertions.go:1045-1052 *)
  Definition Error_ (err : gerror) (msgAndArgs : list iface) : res bool :=
    match err with None => Fail msgAndArgs | Some _ => Ret 0 true end.
  (** assertions.go:1059-1073 *)
  Definition EqualError (theError : gerror) (errString : bytes) (msgAndArgs : list iface) : res bool :=
    bind (Error_ theError msgAndArgs) (fun b =>
      if negb b then Ret 0 false else
      match theError with
      | None => Pan 0
      | Some actual => if negb (bytesEqual errString actual) then Fail msgAndArgs else Ret 0 true
      end).
  (** assertions.go:498-506 *)
  Definition True_ (value : bool) (msgAndArgs : list iface) : res bool := if negb value then Fail msgAndArgs else Ret 0 true.
  (** assertions.go:511-519 *)
  Definition False_ (value : bool) (msgAndArgs : list iface) : res bool := if value then Fail msgAndArgs else Ret 0 true.
  (** assertions.go:756-762; [result] is what the function gives *)
  Definition Condition (result : bool) (msgAndArgs : list iface) : res bool := passOr msgAndArgs result.
End Assertions.
