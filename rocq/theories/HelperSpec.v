(** Which frame is to blame, without the functions of the model. *)
From Verif Require Import Base HelperModel.

(** The function of package testing that runs a test; the names that a test knows as its helpers *)
Definition runner : bytes := bs "testing.tRunner".
Definition helpers (t : tee) : list bytes := match t with Top h => h | Sub h _ _ => h end.
(** The function of the frame is a helper of the test *)
Definition marked (t : tee) (f : frame) : Prop := In (ffunc f) (helpers t) /\ ffunc f <> runner.
(** The first frame from the top that is not in a helper; if all functions of a test are helpers, that is looked for where the test was started with Run; in a test
    that was not started so, it is the test function *)
Inductive blamed : tee -> list frame -> frame -> Prop :=
| bl_first t pre f post : Forall (marked t) pre -> ~ In (ffunc f) (helpers t) -> ffunc f <> runner -> blamed t (pre ++ f :: post) f
| bl_top h pre f r post : Forall (marked (Top h)) (pre ++ [f]) -> ffunc r = runner -> blamed (Top h) (pre ++ f :: r :: post) f
| bl_sub h creator parent pre r post f : Forall (marked (Sub h creator parent)) pre -> ffunc r = runner -> blamed parent creator f ->
    blamed (Sub h creator parent) (pre ++ r :: post) f.
(** The test with two more helpers: the check and test.Helper *)
Definition with_helpers (t : tee) (l : list bytes) : tee := match t with Top h => Top (l ++ h) | Sub h c p => Sub (l ++ h) c p end.
Definition test_helper : bytes := bs "github.com/v2pro/plz/test.Helper".

(** Where the checks call Helper, assert and the methods of t, as the source has it: the function, its file and the lines of the calls *)
Definition calls_of (p : bytes) (must : bool) : list (bytes * bytes * list Z) :=
  let f name := bs "github.com/v2pro/plz/test/" ++ p ++ bs "." ++ name in
  let at_ file := bs "test/" ++ p ++ bs "/" ++ file in
  [(f (bs "Nil"), at_ (bs "nil.go"), [11; 14; 17; 20]); (f (bs "AssertNil"), at_ (bs "nil.go"), [25; 28; 31; 34]);
   (f (bs "NotNil"), at_ (bs "nil.go"), [39; 42; 45; 48]); (f (bs "AssertNotNil"), at_ (bs "nil.go"), [53; 56; 59; 62]);
   (f (bs "Equal"), at_ (bs "equal.go"), [15; 18; 21]); (f (bs "AssertEqual"), at_ (bs "equal.go"), [30; 33; 36])] ++
  if must
  then [(f (bs "Assert"), at_ (bs "pass.go"), [15; 18; 21]); (f (bs "Pass"), at_ (bs "pass.go"), [30; 33; 38; 40]);
        (f (bs "Call"), at_ (bs "call.go"), [34; 37; 40; 43]); (f (bs "JsonEqual"), at_ (bs "json.go"), [14; 18; 29; 35; 36; 40; 43; 46; 49; 50])]
  else [(f (bs "Assert"), at_ (bs "pass.go"), [13; 16; 21; 23]); (f (bs "Pass"), at_ (bs "pass.go"), [31; 34; 39; 41]);
        (f (bs "Call"), at_ (bs "call.go"), [28; 31; 34; 37]); (f (bs "JsonEqual"), at_ (bs "json.go"), [13; 17; 28; 34; 35; 39; 42; 45; 48; 49])].
(** The line of a call *)
Definition line_of (a : act) : Z := match a with AHelper l | ALog l | AAssert l _ _ | ADeferred l | ADeferredAssert l _ _ => l end.
