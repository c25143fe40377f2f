(** What the rest of test/testify/assert is expected to do, without the definitions of its model but the values, results and inputs. *)
From Verif Require Import Base TestifyModel TestifySpec TestifyMoreModel.
Open Scope Z_scope.
Open Scope list_scope.

(** ** nil *)
(** The values that == nil holds for: the nil interface, and the nil values of the kinds that have one.  (Functions, of kind 19, and values of
    type unsafe.Pointer, of kind 26, are told by a number that is 0 for nil.) *)
Inductive nilValue : iface -> Prop :=
| nil_iface : nilValue None
| nil_chan : forall ty, nilValue (Some (VChan ty None))
| nil_func : forall ty, nilValue (Some (VOther ty 19 0))
| nil_map : forall ty, nilValue (Some (VMap ty None))
| nil_ptr : forall ty, nilValue (Some (VPtr ty None))
| nil_slice : forall ty, nilValue (Some (VSlice ty None))
| nil_bytes : nilValue (Some (VBytes None))
| nil_unsafe : forall ty, nilValue (Some (VOther ty 26 0)).
Definition isUnsafePointer (v : iface) : Prop := exists ty id, v = Some (VOther ty 26 id).
(** The kind of a [VOther] value: a boolean, a complex number, a function, a struct or unsafe.Pointer; of the others: integers, floats *)
Definition otherKinds : list Z := [1; 15; 16; 19; 25; 26].
Inductive wellKinded : iface -> Prop :=
| wk_nil : wellKinded None
| wk_int : forall ty k n, 2 <= k <= 12 -> wellKinded (Some (VInt ty k n))
| wk_float : forall ty k f, 13 <= k <= 14 -> wellKinded (Some (VFloat ty k f))
| wk_other : forall ty k id, In k otherKinds -> wellKinded (Some (VOther ty k id))
| wk_str : forall ty s, wellKinded (Some (VStr ty s))
| wk_arr : forall ty l, wellKinded (Some (VArr ty l))
| wk_slice : forall ty l, wellKinded (Some (VSlice ty l))
| wk_bytes : forall b, wellKinded (Some (VBytes b))
| wk_map : forall ty l, wellKinded (Some (VMap ty l))
| wk_chan : forall ty n, wellKinded (Some (VChan ty n))
| wk_ptr : forall ty p, wellKinded (Some (VPtr ty p)).
(** Both nil, or values of the same type *)
Inductive ofSameType : iface -> iface -> Prop :=
| st_nil : ofSameType None None
| st_some : forall a b, typeOf a = typeOf b -> ofSameType (Some a) (Some b).

(** ** Files: a file system maps paths to files, directories and symbolic links *)
Inductive node := NFile | NDir | NLink (to : bytes).
Definition files := bytes -> option node.
(** [names fs p n]: following the links from p ends at n, a file or directory *)
Inductive names (fs : files) : bytes -> node -> Prop :=
| names_file : forall p, fs p = Some NFile -> names fs p NFile
| names_dir : forall p, fs p = Some NDir -> names fs p NDir
| names_link : forall p q n, fs p = Some (NLink q) -> names fs q n -> names fs p n.
(** What os.Lstat gives, if it has no error of its own: it does not follow the last link *)
Inductive lstats (fs : files) (p : bytes) : lstat -> Prop :=
| ls_none : fs p = None -> lstats fs p LNotExist
| ls_dir : fs p = Some NDir -> lstats fs p (LInfo true)
| ls_file : fs p = Some NFile -> lstats fs p (LInfo false)
| ls_link : forall q, fs p = Some (NLink q) -> lstats fs p (LInfo false).

(** ** HTTP *)
(** The status of the response: the one of the first WriteHeader before any Write, 200 without *)
Inductive status : list haction -> Z -> Prop :=
| status_none : status [] 200
| status_write : forall b acts, status (HWrite b :: acts) 200
| status_header : forall c acts, status (HWriteHeader c :: acts) c.
(** The body: everything written *)
Fixpoint bodyOf (acts : list haction) : bytes :=
  match acts with [] => [] | HWrite b :: acts => b ++ bodyOf acts | HWriteHeader _ :: acts => bodyOf acts end.
(** The classes of RFC 7231 *)
Definition statusClass (c n : Z) : Prop := 100 * n <= c < 100 * n + 100.
(** The query of a URL: what is between the first '?' and the first '#'; None without.  A '#' before the '?' means there is none *)
Fixpoint queryOf (url : bytes) : option bytes :=
  match url with
  | [] => None
  | c :: url =>
    if c =? 35 then None else
    if c =? 63 then Some ((fix upto (s : bytes) : bytes := match s with [] => [] | d :: s => if d =? 35 then [] else d :: upto s end) url)
    else queryOf url
  end.

(** ** The call stack *)
(** [path dir file f]: f is the path of [file] in a directory named [dir] *)
Inductive inDirectory : bytes -> bytes -> bytes -> Prop :=
| in_root : forall dir file, ~ In 47 dir -> ~ In 47 file -> inDirectory dir file (dir ++ [47] ++ file)
| in_deep : forall pre dir file, ~ In 47 dir -> ~ In 47 file -> inDirectory dir file (pre ++ [47] ++ dir ++ [47] ++ file).
(** The name of a function without its package: what follows the last '.' *)
Inductive baseName : bytes -> bytes -> Prop :=
| bn_plain : forall n, ~ In 46 n -> baseName n n
| bn_dotted : forall pre n, ~ In 46 n -> baseName (pre ++ [46] ++ n) n.
(** The directories whose files are not shown *)
Definition hiddenDirs : list bytes := [bs "assert"; bs "mock"; bs "require"].
(** The line for a frame: "file:line" for a file of another directory, and for mock_test.go; none otherwise *)
Inductive callerLine : frame -> list bytes -> Prop :=
| cl_shown : forall f dir file, inDirectory dir file (fFile f) -> ~ In dir hiddenDirs \/ file = bs "mock_test.go" -> callerLine f [file ++ [58] ++ fLine f]
| cl_hidden : forall f dir file, inDirectory dir file (fFile f) -> In dir hiddenDirs -> file <> bs "mock_test.go" -> callerLine f []
| cl_flat : forall f, ~ In 47 (fFile f) -> callerLine f [].
Section Stack.
  Variable startsLower : bytes -> bool.
  (** The name of a test, benchmark or example *)
  Inductive testName : bytes -> Prop :=
  | tn : forall prefix rest, In prefix [bs "Test"; bs "Benchmark"; bs "Example"] -> rest = [] \/ startsLower rest = false -> testName (prefix ++ rest).
  Definition isTestFrame (f : frame) : Prop := exists name b, fName f = Some name /\ baseName name b /\ testName b.
  (** Where the stack of the test ends, the frame itself not belonging to it *)
  Definition boundary (f : frame) : Prop := fFile f = bs "<autogenerated>" \/ fName f = None \/ fName f = Some (bs "testing.tRunner").
  (** [testStack stack own]: own are the frames from the first to the one of the test function, or before the boundary *)
  Inductive testStack : list frame -> list frame -> Prop :=
  | ts_end : testStack [] []
  | ts_boundary : forall f r, boundary f -> testStack (f :: r) []
  | ts_test : forall f r, ~ boundary f -> isTestFrame f -> testStack (f :: r) [f]
  | ts_more : forall f r own, ~ boundary f -> ~ isTestFrame f -> testStack r own -> testStack (f :: r) (f :: own).
End Stack.

(** fmt.Sprint of strings and of slices of bytes, for examples: "[97 98]" for the bytes of "ab" *)
Definition exampleDigits (c : Z) : bytes :=
  (if 100 <=? c then [48 + c / 100] else []) ++ (if 10 <=? c then [48 + c / 10 mod 10] else []) ++ [48 + c mod 10].
Definition exampleSprint (v : iface) : bytes :=
  match v with
  | Some (VStr _ s) => s
  | Some (VBytes b) => bs "[" ++ joined (bs " ") (map exampleDigits (match b with Some b => b | None => [] end)) ++ bs "]"
  | _ => bs "<nil>"
  end.
(** Regular expressions for examples: texts without special bytes stand for themselves, '(' does not compile *)
Definition exampleCompile (s : bytes) : option bytes := if existsb (Z.eqb 40) s then None else Some s.
Definition exampleFinds (r s : bytes) : bool :=
  (fix from (s : bytes) : bool :=
     (fix at_ (r s : bytes) : bool := match r, s with [], _ => true | a :: r, b :: s => (a =? b) && at_ r s | _ :: _, [] => false end) r s
     || match s with [] => false | _ :: s => from s end) s.
