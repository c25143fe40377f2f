(** Model of the rest of test/testify/assert: Nil, IsType, Implements, FailNow, Regexp, JSONEq, FileExists, DirExists and CallerInfo of
    assertions.go, http_assertions.go, and the functions of assertion_format.go.  Packages regexp, encoding/json, reflect's Implements, fmt.Sprint,
    http.NewRequest and url.Values are parameters. *)
From Verif Require Import Base TestifyModel.
From Flocq Require Import IEEE754.Bits.
Open Scope Z_scope.
Open Scope list_scope.

(** ** nil *)
(** reflect.Value's IsNil for the kinds from Chan to Slice: assertions.go:390.  A function is [VOther] of kind 19, nil if its number is 0 *)
Definition refIsNil (v : gval) : bool :=
  match v with
  | VSlice _ None | VBytes None | VMap _ None | VChan _ None | VPtr _ None => true
  | VOther _ _ id => id =? 0
  | _ => false
  end.
(** assertions.go:383-395 *)
Definition isNil (object : iface) : bool :=
  match object with
  | None => true
  | Some value => let kind := kindOf value in (18 <=? kind) && (kind <=? 23) && refIsNil value
  end.

(** ** HTTP: what a handler does with its http.ResponseWriter *)
(** http_assertions.go:19, 91: the calls of the handler *)
Inductive haction := HWriteHeader (code : Z) | HWrite (b : bytes).
(** httptest.ResponseRecorder (http_assertions.go:14, 86): Code, whether the header was written, Body *)
Record recorder := { rCode : Z; rWrote : bool; rBody : bytes }.
(** httptest.NewRecorder: http_assertions.go:14, 86 *)
Definition newRecorder : recorder := {| rCode := 200; rWrote := false; rBody := [] |}.
(** ResponseRecorder's WriteHeader: only the first one counts; http_assertions.go:19 *)
Definition recWriteHeader (rw : recorder) (code : Z) : recorder :=
  if rWrote rw then rw else {| rCode := code; rWrote := true; rBody := rBody rw |}.
(** ResponseRecorder's Write: http_assertions.go:91-92 *)
Definition recWrite (rw : recorder) (b : bytes) : recorder :=
  let rw := recWriteHeader rw 200 in {| rCode := rCode rw; rWrote := rWrote rw; rBody := rBody rw ++ b |}.
(** The calls of a handler, in order: http_assertions.go:19, 91 *)
Definition record_ (acts : list haction) : recorder :=
  fold_left (fun rw a => match a with HWriteHeader c => recWriteHeader rw c | HWrite b => recWrite rw b end) acts newRecorder.
(** A handler: for a method and a URL its calls, and how it ends; http_assertions.go:13 *)
Definition handler := bytes -> bytes -> list haction * fend.

(** ** Files: what os.Lstat gives; assertions.go:1136, 1151 *)
Inductive lstat := LNotExist | LError | LInfo (isDir : bool).

(** ** The call stack: for runtime.Caller(i) (assertions.go:94) the file, the line in digits, and the name of the function, if FuncForPC (106) knows it *)
Record frame := { fFile : bytes; fLine : bytes; fName : option bytes }.
(** strings.Split by a separator of one byte: assertions.go:121, 131 *)
Fixpoint split1 (sep : Z) (s : bytes) : list bytes :=
  match s with
  | [] => [[]]
  | c :: s => if c =? sep then [] :: split1 sep s else match split1 sep s with p :: r => (c :: p) :: r | [] => [[c]] end
  end.

Section More.
  Variable sprintf : bytes -> list iface -> bytes.
  (** assertions.go:375-380 *)
  Definition NotNil (object : iface) (msgAndArgs : list iface) : res bool := if negb (isNil object) then Ret 0 true else Fail sprintf msgAndArgs.
  (** assertions.go:400-405 *)
  Definition Nil (object : iface) (msgAndArgs : list iface) : res bool := if isNil object then Ret 0 true else Fail sprintf msgAndArgs.
  (** assertions.go:288-295; that two values of type reflect.Type are deeply equal only if they are the same is taken for granted *)
  Definition IsType (expectedType object : iface) (msgAndArgs : list iface) : res bool :=
    if negb (sameType object expectedType) then Fail sprintf msgAndArgs else Ret 0 true.
  (** reflect.Type's Elem (275), None: it panics; whether a type is an interface, and its Implements (280) *)
  Variable elemOf : Z -> option Z.
  Variable isInterface : Z -> bool.
  Variable implements : Z -> Z -> bool.
  (** assertions.go:274-285; TypeOf(nil).Elem() panics, as does Implements for a type that is no interface *)
  Definition Implements (interfaceObject object : iface) (msgAndArgs : list iface) : res bool :=
    match interfaceObject with
    | None => Pan 0
    | Some i =>
      match elemOf (typeOf i) with
      | None => Pan 0
      | Some interfaceType =>
        match object with
        | None => Fail sprintf msgAndArgs
        | Some o =>
          if negb (isInterface interfaceType) then Pan 0 else
          if negb (implements (typeOf o) interfaceType) then Fail sprintf msgAndArgs else Ret 0 true
        end
      end
    end.
  (** assertions.go:210-225; failNow is how the method FailNow of t ends, None if t has none *)
  Definition FailNow (failNow : option fend) (msgAndArgs : list iface) : res bool :=
    bind (Fail sprintf msgAndArgs) (fun _ =>
      match failNow with
      | Some FReturns => Ret 0 false
      | Some (FPanics _) => Pan 0
      | Some FExits => Exit 0
      | None => Pan 0
      end).

  (** ** Regular expressions *)
  (** A compiled expression, whether an interface holds a *regexp.Regexp (1078; None inside: the nil pointer), fmt.Sprint (1081, 1084),
      regexp.Compile (1081) and whether FindStringIndex finds something (1084) *)
  Variable regex : Type.
  Variable asRegexp : iface -> option (option regex).
  Variable sprint : iface -> bytes.
  Variable compile : bytes -> option regex.
  Variable finds : regex -> bytes -> bool.
  (** assertions.go:1075-1086 *)
  Definition matchRegexp (rx str : iface) : res bool :=
    match (match asRegexp rx with Some rr => rr | None => compile (sprint rx) end) with
    | None => Pan 0
    | Some r => Ret 0 (finds r (sprint str))
    end.
  (** assertions.go:1092-1101 *)
  Definition Regexp (rx str : iface) (msgAndArgs : list iface) : res bool :=
    bind (matchRegexp rx str) (fun m => if negb m then bind (Fail sprintf msgAndArgs) (fun _ => Ret 0 m) else Ret 0 m).
  (** assertions.go:1107-1116 *)
  Definition NotRegexp (rx str : iface) (msgAndArgs : list iface) : res bool :=
    bind (matchRegexp rx str) (fun m => if m then bind (Fail sprintf msgAndArgs) (fun _ => Ret 0 (negb m)) else Ret 0 (negb m)).

  (** ** JSON *)
  (** json.Unmarshal into an interface{}: 1170, 1174 *)
  Variable unmarshal : bytes -> option iface.
  Variable deq : gval -> gval -> bool.
  (** assertions.go:1167-1179 *)
  Definition JSONEq (expected actual : bytes) (msgAndArgs : list iface) : res bool :=
    match unmarshal expected with
    | None => Fail sprintf msgAndArgs
    | Some e => match unmarshal actual with None => Fail sprintf msgAndArgs | Some a => Equal sprintf deq e a msgAndArgs end
    end.

  (** ** Files *)
  (** assertions.go:1135-1147 *)
  Definition FileExists (info : lstat) (msgAndArgs : list iface) : res bool :=
    match info with
    | LNotExist => Fail sprintf msgAndArgs
    | LError => Fail sprintf msgAndArgs
    | LInfo isDir => if isDir then Fail sprintf msgAndArgs else Ret 0 true
    end.
  (** assertions.go:1150-1162 *)
  Definition DirExists (info : lstat) (msgAndArgs : list iface) : res bool :=
    match info with
    | LNotExist => Fail sprintf msgAndArgs
    | LError => Fail sprintf msgAndArgs
    | LInfo isDir => if negb isDir then Fail sprintf msgAndArgs else Ret 0 true
    end.

  (** ** HTTP *)
  (** Whether http.NewRequest takes a method and a URL: http_assertions.go:15, 87 *)
  Variable newRequest : bytes -> bytes -> bool.
  (** url+"?"+values.Encode(): http_assertions.go:15, 87; query is values.Encode() *)
  Definition target (url query : bytes) : bytes := url ++ [63] ++ query.
  (** http_assertions.go:13-21; None: the error *)
  Definition httpCode (h : handler) (method url query : bytes) : res (option Z) :=
    if negb (newRequest method (target url query)) then Ret 0 None else
    let (acts, e) := h method (target url query) in
    match e with FReturns => Ret 0 (Some (rCode (record_ acts))) | FPanics _ => Pan 0 | FExits => Exit 0 end.
  (** http_assertions.go:29-40, 49-60, 69-80: the rest of the three assertions is the same; msgAndArgs are not used *)
  Definition httpAssert (isCode : Z -> bool) (h : handler) (method url query : bytes) (msgAndArgs : list iface) : res bool :=
    bind (httpCode h method url query) (fun code =>
      match code with
      | None => bind (Fail sprintf []) (fun _ => Ret 0 false)
      | Some code => if negb (isCode code) then bind (Fail sprintf []) (fun _ => Ret 0 (isCode code)) else Ret 0 (isCode code)
      end).
  (** http_assertions.go:28-41 *)
  Definition HTTPSuccess := httpAssert (fun code => (200 <=? code) && (code <=? 206)).
  (** http_assertions.go:48-61 *)
  Definition HTTPRedirect := httpAssert (fun code => (300 <=? code) && (code <=? 307)).
  (** http_assertions.go:68-81 *)
  Definition HTTPError := httpAssert (fun code => 400 <=? code).
  (** http_assertions.go:85-93 *)
  Definition HTTPBody (h : handler) (method url query : bytes) : res bytes :=
    if negb (newRequest method (target url query)) then Ret 0 [] else
    let (acts, e) := h method (target url query) in
    match e with FReturns => Ret 0 (rBody (record_ acts)) | FPanics _ => Pan 0 | FExits => Exit 0 end.
  (** http_assertions.go:101-110 *)
  Definition HTTPBodyContains (h : handler) (method url query : bytes) (str : iface) (msgAndArgs : list iface) : res bool :=
    bind (HTTPBody h method url query) (fun body =>
      let contains := containsSub body (sprint str) in
      if negb contains then bind (Fail sprintf []) (fun _ => Ret 0 contains) else Ret 0 contains).
  (** http_assertions.go:118-127 *)
  Definition HTTPBodyNotContains (h : handler) (method url query : bytes) (str : iface) (msgAndArgs : list iface) : res bool :=
    bind (HTTPBody h method url query) (fun body =>
      let contains := containsSub body (sprint str) in
      if contains then bind (Fail sprintf []) (fun _ => Ret 0 (negb contains)) else Ret 0 (negb contains)).

  (** ** CallerInfo *)
  (** Whether the rune a text begins with is a lower case letter, utf8.DecodeRuneInString and unicode.IsLower: assertions.go:154-155 *)
  Variable startsLower : bytes -> bool.
  (** assertions.go:147-156 *)
  Definition isTest (name prefix : bytes) : bool :=
    if negb (hasPrefix name prefix) then false else
    if (List.length name =? List.length prefix)%nat then true else negb (startsLower (skipn (List.length prefix) name)).
  (** assertions.go:93-138; the frames from the first on, callers is the list so far *)
  Fixpoint callerLoop (frames : list frame) (callers : list bytes) : list bytes :=
    match frames with
    | [] => callers
    | f :: frames =>
      if bytesEqual (fFile f) (bs "<autogenerated>") then callers else
      match fName f with
      | None => callers
      | Some name =>
        if bytesEqual name (bs "testing.tRunner") then callers else
        let parts := split1 47 (fFile f) in
        let file := last parts [] in
        let callers :=
          if (1 <? List.length parts)%nat then
            let dir := nth (List.length parts - 2) parts [] in
            if (negb (bytesEqual dir (bs "assert")) && negb (bytesEqual dir (bs "mock")) && negb (bytesEqual dir (bs "require")))
               || bytesEqual file (bs "mock_test.go")
            then callers ++ [file ++ [58] ++ fLine f] else callers
          else callers in
        let name := last (split1 46 name) [] in
        if isTest name (bs "Test") || isTest name (bs "Benchmark") || isTest name (bs "Example") then callers
        else callerLoop frames callers
      end
    end.
  (** assertions.go:84-141 *)
  Definition CallerInfo (stack : list frame) : list bytes := callerLoop stack [].

  (** ** assertion_format.go *)
  (** append([]interface{}{msg}, args...): assertion_format.go:16 *)
  Definition msgArgs (msg : bytes) (args : list iface) : list iface := Some (VStr 24 msg) :: args.
  Variable convertible : Z -> Z -> bool.
  Variable convert : gval -> Z -> gval.
  Variable zero : Z -> gval.
  Variable memory : Z -> iface.
  Variable typeName : Z -> bytes.
  Variable keyEq : iface -> iface -> bool.
  Variable keyAssignable : Z -> Z -> bool.
  Variable ifaceEq : iface -> iface -> option bool.
  (** assertion_format.go:15-17 *)
  Definition Conditionf (result : bool) (msg : bytes) (args : list iface) := Condition sprintf result (msgArgs msg args).
  (** assertion_format.go:25-27 *)
  Definition Containsf (s contains : iface) (msg : bytes) (args : list iface) := Contains sprintf deq typeName s contains (msgArgs msg args).
  (** assertion_format.go:30-32 *)
  Definition DirExistsf (info : lstat) (msg : bytes) (args : list iface) := DirExists info (msgArgs msg args).
  (** assertion_format.go:39-41 *)
  Definition ElementsMatchf (fuel : nat) (a b : iface) (msg : bytes) (args : list iface) := ElementsMatch sprintf deq zero memory fuel a b (msgArgs msg args).
  (** assertion_format.go:47-49 *)
  Definition Emptyf (fuel : nat) (object : iface) (msg : bytes) (args : list iface) := Empty sprintf deq zero memory fuel object (msgArgs msg args).
  (** assertion_format.go:58-60 *)
  Definition Equalf (e a : iface) (msg : bytes) (args : list iface) := Equal sprintf deq e a (msgArgs msg args).
  (** assertion_format.go:67-69 *)
  Definition EqualErrorf (err : gerror) (s : bytes) (msg : bytes) (args : list iface) := EqualError sprintf err s (msgArgs msg args).
  (** assertion_format.go:75-77 *)
  Definition EqualValuesf (e a : iface) (msg : bytes) (args : list iface) := EqualValues sprintf deq convertible convert e a (msgArgs msg args).
  (** assertion_format.go:85-87 *)
  Definition Errorf (err : gerror) (msg : bytes) (args : list iface) := Error_ sprintf err (msgArgs msg args).
  (** assertion_format.go:92-94 *)
  Definition Exactlyf (e a : iface) (msg : bytes) (args : list iface) := Exactly sprintf deq e a (msgArgs msg args).
  (** assertion_format.go:97-99 *)
  Definition Failf (msg : bytes) (args : list iface) := Fail sprintf (msgArgs msg args).
  (** assertion_format.go:97-99: the text *)
  Definition failfText (caller : option (bytes * bytes)) (failureMessage msg : bytes) (args : list iface) := failText sprintf caller failureMessage (msgArgs msg args).
  (** assertion_format.go:102-104 *)
  Definition FailNowf (failNow : option fend) (msg : bytes) (args : list iface) := FailNow failNow (msgArgs msg args).
  (** assertion_format.go:109-111 *)
  Definition Falsef (value : bool) (msg : bytes) (args : list iface) := False_ sprintf value (msgArgs msg args).
  (** assertion_format.go:114-116 *)
  Definition FileExistsf (info : lstat) (msg : bytes) (args : list iface) := FileExists info (msgArgs msg args).
  (** assertion_format.go:124-126 *)
  Definition HTTPBodyContainsf (h : handler) (m u q : bytes) (str : iface) (msg : bytes) (args : list iface) := HTTPBodyContains h m u q str (msgArgs msg args).
  (** assertion_format.go:134-136 *)
  Definition HTTPBodyNotContainsf (h : handler) (m u q : bytes) (str : iface) (msg : bytes) (args : list iface) := HTTPBodyNotContains h m u q str (msgArgs msg args).
  (** assertion_format.go:143-145 *)
  Definition HTTPErrorf (h : handler) (m u q : bytes) (msg : bytes) (args : list iface) := HTTPError h m u q (msgArgs msg args).
  (** assertion_format.go:152-154 *)
  Definition HTTPRedirectf (h : handler) (m u q : bytes) (msg : bytes) (args : list iface) := HTTPRedirect h m u q (msgArgs msg args).
  (** assertion_format.go:161-163 *)
  Definition HTTPSuccessf (h : handler) (m u q : bytes) (msg : bytes) (args : list iface) := HTTPSuccess h m u q (msgArgs msg args).
  (** assertion_format.go:168-170 *)
  Definition Implementsf (i o : iface) (msg : bytes) (args : list iface) := Implements i o (msgArgs msg args).
  (** assertion_format.go:175-177 *)
  Definition InDeltaf (e a : iface) (delta : binary64) (msg : bytes) (args : list iface) := InDelta sprintf e a delta (msgArgs msg args).
  (** assertion_format.go:180-182 *)
  Definition InDeltaMapValuesf (e a : iface) (delta : binary64) (msg : bytes) (args : list iface) := InDeltaMapValues sprintf keyEq keyAssignable e a delta (msgArgs msg args).
  (** assertion_format.go:185-187 *)
  Definition InDeltaSlicef (e a : iface) (delta : binary64) (msg : bytes) (args : list iface) := InDeltaSlice sprintf e a delta (msgArgs msg args).
  (** assertion_format.go:190-192 *)
  Definition InEpsilonf (e a : iface) (epsilon : binary64) (msg : bytes) (args : list iface) := InEpsilon sprintf e a epsilon (msgArgs msg args).
  (** assertion_format.go:195-197 *)
  Definition InEpsilonSlicef (e a : iface) (epsilon : binary64) (msg : bytes) (args : list iface) := InEpsilonSlice sprintf e a epsilon (msgArgs msg args).
  (** assertion_format.go:200-202 *)
  Definition IsTypef (e o : iface) (msg : bytes) (args : list iface) := IsType e o (msgArgs msg args).
  (** assertion_format.go:207-209 *)
  Definition JSONEqf (e a : bytes) (msg : bytes) (args : list iface) := JSONEq e a (msgArgs msg args).
  (** assertion_format.go:215-217 *)
  Definition Lenf (o : iface) (length : Z) (msg : bytes) (args : list iface) := Len sprintf o length (msgArgs msg args).
  (** assertion_format.go:222-224 *)
  Definition Nilf (o : iface) (msg : bytes) (args : list iface) := Nil o (msgArgs msg args).
  (** assertion_format.go:232-234 *)
  Definition NoErrorf (err : gerror) (msg : bytes) (args : list iface) := NoError sprintf err (msgArgs msg args).
  (** assertion_format.go:242-244 *)
  Definition NotContainsf (s contains : iface) (msg : bytes) (args : list iface) := NotContains sprintf deq typeName s contains (msgArgs msg args).
  (** assertion_format.go:252-254 *)
  Definition NotEmptyf (fuel : nat) (o : iface) (msg : bytes) (args : list iface) := NotEmpty sprintf deq zero memory fuel o (msgArgs msg args).
  (** assertion_format.go:262-264 *)
  Definition NotEqualf (e a : iface) (msg : bytes) (args : list iface) := NotEqual sprintf deq e a (msgArgs msg args).
  (** assertion_format.go:269-271 *)
  Definition NotNilf (o : iface) (msg : bytes) (args : list iface) := NotNil o (msgArgs msg args).
  (** assertion_format.go:276-278 *)
  Definition NotPanicsf (f : fend) (msg : bytes) (args : list iface) := NotPanics sprintf f (msgArgs msg args).
  (** assertion_format.go:284-286 *)
  Definition NotRegexpf (rx str : iface) (msg : bytes) (args : list iface) := NotRegexp rx str (msgArgs msg args).
  (** assertion_format.go:292-294 *)
  Definition NotSubsetf (whole subset : iface) (msg : bytes) (args : list iface) := NotSubset sprintf deq typeName whole subset (msgArgs msg args).
  (** assertion_format.go:297-299 *)
  Definition NotZerof (i : iface) (msg : bytes) (args : list iface) := NotZero sprintf deq zero i (msgArgs msg args).
  (** assertion_format.go:304-306 *)
  Definition Panicsf (f : fend) (msg : bytes) (args : list iface) := Panics sprintf f (msgArgs msg args).
  (** assertion_format.go:312-314 *)
  Definition PanicsWithValuef (e : iface) (f : fend) (msg : bytes) (args : list iface) := PanicsWithValue sprintf ifaceEq e f (msgArgs msg args).
  (** assertion_format.go:320-322 *)
  Definition Regexpf (rx str : iface) (msg : bytes) (args : list iface) := Regexp rx str (msgArgs msg args).
  (** assertion_format.go:328-330 *)
  Definition Subsetf (whole subset : iface) (msg : bytes) (args : list iface) := Subset sprintf deq typeName whole subset (msgArgs msg args).
  (** assertion_format.go:335-337 *)
  Definition Truef (value : bool) (msg : bytes) (args : list iface) := True_ sprintf value (msgArgs msg args).
  (** assertion_format.go:342-344 *)
  Definition WithinDurationf (e a delta : Z) (msg : bytes) (args : list iface) := WithinDuration sprintf e a delta (msgArgs msg args).
  (** assertion_format.go:347-349 *)
  Definition Zerof (i : iface) (msg : bytes) (args : list iface) := Zero sprintf deq zero i (msgArgs msg args).
End More.
