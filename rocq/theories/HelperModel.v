(** Model of test.Helper (test/go_above_19.go) and of the positions that package testing prints for what the checks of test/must and test/should log.
    Package testing (that of Go 1.14, go.mod:3) is modelled as far as t.Helper and the choice of the frame go.  Citations without a directory are to test. *)
From Verif Require Import Base.

(** A frame of a stack: the function (go_above_19.go:43), the file and the line it is at *)
Record frame := mkFrame { ffunc : bytes; ffile : bytes; fline : Z }.
(** == of strings, as keys of the map helpers (go_above_19.go:29) *)
Definition streq (a b : bytes) : bool := if list_eq_dec Z.eq_dec a b then true else false.

(** A [*]testing.T (go_above_19.go:23): its field helpers (18); a subtest has the stack of the call of Run and its parent *)
Inductive tee := Top (helpers : list bytes) | Sub (helpers : list bytes) (creator : list frame) (parent : tee).
(** The field helpers: go_above_19.go:28 *)
Definition helpersOf (t : tee) : list bytes := match t with Top h | Sub h _ _ => h end.
(** An entry of the map: go_above_19.go:29 *)
Definition mark (name : bytes) (t : tee) : tee := match t with Top h => Top (name :: h) | Sub h c p => Sub (name :: h) c p end.
(** t.Helper(): it marks the function that calls it; [stack]: from that function on (go_above_19.go:24) *)
Definition tHelper (stack : list frame) (t : tee) : tee := match stack with f :: _ => mark (ffunc f) t | [] => t end.

(** go_above_19.go:34-44, 0 being runtime.Callers itself; [stack]: from the caller of callerName on.  The panic for no callers gives no name *)
Definition callerName (skip : nat) (stack : list frame) : option bytes :=
  let frames := mkFrame (bs "runtime.Callers") (bs "runtime/extern.go") 0 :: mkFrame (bs "github.com/v2pro/plz/test.callerName") (bs "test/go_above_19.go") 37 :: stack in
  option_map ffunc (nth_error frames (skip + 2)).
(** The frame of Helper: go_above_19.go:22-30 *)
Definition helperFrame (line : Z) : frame := mkFrame (bs "github.com/v2pro/plz/test.Helper") (bs "test/go_above_19.go") line.
(** go_above_19.go:22-30, t being that of the goroutine; [stack]: from the caller on.  None: a panic.  The map is never nil, since t.Helper makes it; the mutex is
    that of t.Helper, which is not held then *)
Definition Helper (stack : list frame) (t : tee) : option tee :=
  let t := tHelper (helperFrame 24 :: stack) t in
  match callerName 1 (helperFrame 29 :: stack) with
  | None => None
  | Some name => Some (mark name t)
  end.

(** The name of the function of package testing that runs a test (go_above_19.go:23) *)
Definition tRunner : bytes := bs "testing.tRunner".
(** frameSkip of package testing, within the test [h] belongs to: the first frame whose function is not in the map; or the runner, with the frame before (go_above_19.go:24, 29) *)
Inductive found := Found (f : frame) | AtRunner (prev runner : frame) | Out.
(** As found: go_above_19.go:24, 29 *)
Fixpoint skipHelpers (h : list bytes) (prev : frame) (frames : list frame) : found :=
  match frames with
  | [] => Out
  | f :: frames =>
    if streq (ffunc f) tRunner then AtRunner prev f
    else if existsb (streq (ffunc f)) h then skipHelpers h f frames
    else Found f
  end.
(** frameSkip of package testing (go_above_19.go:24, 29): the position that is printed for a log from the top of [frames]; no position if there are no frames *)
Fixpoint frameSkip (t : tee) (first prev : frame) (frames : list frame) : frame :=
  match skipHelpers (helpersOf t) prev frames with
  | Found f => f
  | Out => first
  | AtRunner prev runner => match t with Top _ => prev | Sub _ creator parent => frameSkip parent first runner creator end
  end.
(** What t.Log, t.Error and t.Fatal print, called from the top of [stack] (must/nil.go:20) *)
Definition position (t : tee) (stack : list frame) : option frame := match stack with [] => None | f :: _ => Some (frameSkip t f f stack) end.

(** What a check does that is of importance here (must/nil.go:9-21): it calls Helper, or a method of t, at a line; the method of t is called by itself, by a function of assert
    (the line of its call, and the name of the function), or by the function it defers (must/panic.go:17-23), which may call assert as well *)
Inductive act := AHelper (line : Z) | ALog (line : Z) | AAssert (line : Z) (name : bytes) (at_ : Z) | ADeferred (line : Z) | ADeferredAssert (line : Z) (name : bytes) (at_ : Z).
(** A check: its package, name and file, and what it does if it fails, by its ways through the code (must/nil.go:9-21) *)
Record check := mkCheck { cpackage : bytes; cname : bytes; cfile : bytes; cpaths : list (list act) }.
(** The name of the function (go_above_19.go:43): e.g. must/nil.go:9 *)
Definition funcName (c : check) : bytes := bs "github.com/v2pro/plz/test/" ++ cpackage c ++ bs "." ++ cname c.
(** A frame of the check: e.g. must/nil.go:9-21 *)
Definition checkFrame (c : check) (line : Z) : frame := mkFrame (funcName c) (bs "test/" ++ cpackage c ++ bs "/" ++ cfile c) line.
(** A frame of the deferred function: must/panic.go:17-23.  The line of must.Panic is that of its closing brace or of the panic *)
Definition deferredFrame (c : check) (line : Z) : frame := mkFrame (funcName c ++ bs ".func1") (bs "test/" ++ cpackage c ++ bs "/" ++ cfile c) line.
(** The frames of assert: Fail calls t.Errorf, and is called by the assertion (testify/assert/assertions.go:238) *)
Definition assertFrames (name : bytes) (at_ : Z) : list frame :=
  [mkFrame (bs "github.com/v2pro/plz/test/testify/assert.Fail") (bs "test/testify/assert/assertions.go") 238;
   mkFrame (bs "github.com/v2pro/plz/test/testify/assert." ++ name) (bs "test/testify/assert/assertions.go") at_].
(** One step (must/nil.go:9-21): what is printed, with whether it is by assert.  [stack]: from the caller of the check on *)
Definition step (c : check) (stack : list frame) (a : act) (t : tee) : option (tee * list (bool * option frame)) :=
  match a with
  | AHelper line => match Helper (checkFrame c line :: stack) t with None => None | Some t => Some (t, []) end
  | ALog line => Some (t, [(false, position t (checkFrame c line :: stack))])
  | AAssert line name at_ => Some (t, [(true, position t (assertFrames name at_ ++ checkFrame c line :: stack))])
  | ADeferred line => Some (t, [(false, position t (deferredFrame c line :: checkFrame c 25 :: stack))])
  | ADeferredAssert line name at_ => Some (t, [(true, position t (assertFrames name at_ ++ deferredFrame c line :: checkFrame c 25 :: stack))])
  end.
(** A way through the check (must/nil.go:9-21); None: a panic of Helper *)
Fixpoint runCheck (c : check) (stack : list frame) (l : list act) (t : tee) : option (tee * list (bool * option frame)) :=
  match l with
  | [] => Some (t, [])
  | a :: l =>
    match step c stack a t with
    | None => None
    | Some (t, out) => match runCheck c stack l t with None => None | Some (t, out') => Some (t, out ++ out') end
    end
  end.

(** The ways of a check that compares with assert first: e.g. must/nil.go:9-21.  must/equal.go and should/equal.go use the assert of github.com/stretchr/testify, which
    is not modelled: its lines are left out *)
Definition after (assertion : list act) (helper checkFailed report : Z) : list (list act) :=
  [assertion ++ [AHelper helper; ALog checkFailed]; assertion ++ [AHelper helper; ALog report]].
(** must/nil.go, should/nil.go *)
Definition nilChecks (p : bytes) : list check :=
  [mkCheck p (bs "Nil") (bs "nil.go") (after [AAssert 11 (bs "Nil") 404] 14 17 20); mkCheck p (bs "AssertNil") (bs "nil.go") (after [AAssert 25 (bs "Nil") 404] 28 31 34);
   mkCheck p (bs "NotNil") (bs "nil.go") (after [AAssert 39 (bs "NotNil") 379] 42 45 48); mkCheck p (bs "AssertNotNil") (bs "nil.go") (after [AAssert 53 (bs "NotNil") 379] 56 59 62)].
(** must/equal.go, should/equal.go *)
Definition equalChecks (p : bytes) : list check :=
  [mkCheck p (bs "Equal") (bs "equal.go") (after [] 15 18 21); mkCheck p (bs "AssertEqual") (bs "equal.go") (after [] 30 33 36)].
(** must/pass.go:10-41, must/call.go:14-46, must/json.go:12-51, called with [n] pairs of kv (pass.go:36-39) *)
Definition mustChecks (n : nat) : list check :=
  nilChecks (bs "must") ++ equalChecks (bs "must") ++
  [mkCheck (bs "must") (bs "Assert") (bs "pass.go") (after [] 15 18 21);
   mkCheck (bs "must") (bs "Pass") (bs "pass.go") [[AHelper 30; ALog 33]; AHelper 30 :: repeat (ALog 38) n ++ [ALog 40]];
   mkCheck (bs "must") (bs "Call") (bs "call.go") (after [AAssert 34 (bs "NoError") 1033] 37 40 43);
   mkCheck (bs "must") (bs "JsonEqual") (bs "json.go") ([AHelper 14; ALog 18] :: [AHelper 14; ALog 29] :: [AHelper 14; ALog 35; ALog 36] ::
     [[AHelper 14; AAssert 40 (bs "Equal") 313; AHelper 43; ALog 46]; [AHelper 14; AAssert 40 (bs "Equal") 313; AHelper 43; ALog 49; ALog 50]])].
(** should/pass.go:10-43, should/call.go:14-40, should/json.go:11-50, called with [n] pairs of kv *)
Definition shouldChecks (n : nat) : list check :=
  nilChecks (bs "should") ++ equalChecks (bs "should") ++
  [mkCheck (bs "should") (bs "Assert") (bs "pass.go") [[AHelper 13; ALog 16]; AHelper 13 :: repeat (ALog 21) n ++ [ALog 23]];
   mkCheck (bs "should") (bs "Pass") (bs "pass.go") [[AHelper 31; ALog 34]; AHelper 31 :: repeat (ALog 39) n ++ [ALog 41]];
   mkCheck (bs "should") (bs "Call") (bs "call.go") (after [AAssert 28 (bs "NoError") 1033] 31 34 37);
   mkCheck (bs "should") (bs "JsonEqual") (bs "json.go") ([AHelper 13; ALog 17] :: [AHelper 13; ALog 28] :: [AHelper 13; ALog 34; ALog 35] ::
     [[AHelper 13; AAssert 39 (bs "Equal") 313; AHelper 42; ALog 45]; [AHelper 13; AAssert 39 (bs "Equal") 313; AHelper 42; ALog 48; ALog 49]])].
(** must/panic.go:9-26, should/panic.go:9-26 *)
Definition panicCheck (p : bytes) : check :=
  mkCheck p (bs "Panic") (bs "panic.go") [[AHelper 11; ALog 14]; [AHelper 11; ADeferredAssert 19 (bs "NotNil") 379; ADeferred 22]].
