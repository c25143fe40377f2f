(** Model of test/go-spew/spew: Dump (dump.go) and the formatter for %v (format.go), with the helpers of common.go.  Citations without a directory are
    to test/go-spew/spew.  strconv.FormatInt, strconv.Quote, hex.Dump, the methods of values, == of values and sort.Sort are parameters.
    Writers take everything; the default branches for kinds that do not exist (dump.go:442-447, format.go:359-365) are left out. *)
From Verif Require Import Base.
Open Scope Z_scope.
Open Scope list_scope.

(** ** Values *)
(** What a reflect.Value of a basic kind holds (dump.go:317-336, 359, 433-437).  Floats: the text of strconv.FormatFloat and a rank in their order, None for
    NaN.  [BAddr]: uintptr (no length), chan (length and capacity), func, unsafe.Pointer: an address.  Complex numbers: their text. *)
Inductive basic := BBool (b : bool) | BInt (n : Z) | BUint (n : Z) | BFloat (text : bytes) (rank : option Z) | BComplex (text : bytes) | BStr (s : bytes)
| BUintptr (p : Z) | BAddr (len cap p : Z).
(** A reflect.Value, with the text of its type (dump.go:270).  A pointer has an address and the cell it points to (pointers to a struct and to its first field
    have the same address).  Slices and maps refer to their elements, so that they can contain themselves; None is nil.  [SHex]: a slice or array with elements
    of kind uint8, at least one, that is hexdumped (dump.go:161-234; the C types are left out); its capacity.  Fields: name, whether it is exported, value. *)
Inductive sval :=
| SBasic (ty : bytes) (k : basic)
| SPtr (ty : bytes) (p : option (Z * Z))
| SIface (ty : bytes) (v : option sval)
| SArr (ty : bytes) (l : list sval)
| SSlice (ty : bytes) (cap : Z) (s : option Z)
| SHex (ty : bytes) (cap : Z) (b : bytes)
| SMap (ty : bytes) (m : option Z)
| SStruct (ty : bytes) (fields : list (bytes * bool * sval)).
(** What pointers, slices and maps refer to.  The entries of a map in the order of MapKeys (dump.go:386), with what MapIndex gives for the key (394): None, an
    invalid Value, for a key that is not equal to itself. *)
Definition entry := (sval * option sval)%type.
(** The memory: dump.go:115, 238, 386-394 *)
Record heap := { cell : Z -> sval; elems : Z -> list sval; entries : Z -> list entry }.
(** v.Type().String(): dump.go:128, 270 *)
Definition typeText (v : sval) : bytes :=
  match v with SBasic t _ | SPtr t _ | SIface t _ | SArr t _ | SSlice t _ _ | SHex t _ _ | SMap t _ | SStruct t _ => t end.
(** dump.go:73-78 *)
Definition unpackValue (v : sval) : sval := match v with SIface _ (Some w) => w | v => v end.

(** config.go:37-101; DisablePointerMethods is part of what [method] below is given *)
Record config := { Indent : bytes; MaxDepth : nat; DisableMethods : bool; DisablePointerAddresses : bool; DisableCapacities : bool;
  ContinueOnMethod : bool; SortKeys : bool; SpewKeys : bool }.

(** ** printHexPtr *)
(** hexDigits: common.go:68 *)
Definition hexDigit (n : Z) : Z := nth (Z.to_nat n) (bs "0123456789abcdef") 0.
(** buf[i] = c, where buf[i+1:] is [rest] already; None: an index out of range; common.go:194-210 *)
Definition setByte (i c : Z) (rest : bytes) : option bytes := if (0 <=? i) && (i <? 18) then Some (c :: rest) else None.
(** common.go:199-203; the fuel is enough for 64 bits *)
Fixpoint hexLoop (fuel : nat) (num i : Z) (rest : bytes) : option (Z * Z * bytes) :=
  match fuel with
  | O => None
  | S fuel => if num >=? 16 then let? rest := setByte i (hexDigit (num mod 16)) rest in hexLoop fuel (num / 16) (i - 1) rest else Some (num, i, rest)
  end.
(** common.go:185-215 *)
Definition printHexPtr (p : Z) : option bytes :=
  if p =? 0 then Some (bs "<nil>") else
  let? (num, i, rest) := hexLoop 64 p 17 [] in
  let? rest := setByte i (hexDigit num) rest in
  let i := i - 1 in
  let? rest := setByte i 120 rest in
  let i := i - 1 in
  setByte i 48 rest.
(** The text of an address: common.go:214; C106 proves that printHexPtr does not panic *)
Definition hexText (p : Z) : bytes := match printHexPtr p with Some t => t | None => [] end.

(** ** The set of pointers *)
(** dump.go:54 *)
Definition ptrs := list (Z * nat).
(** dump.go:84-88 *)
Definition forget (depth : nat) (m : ptrs) : ptrs := filter (fun x => negb (depth <=? snd x)%nat) m.
(** pd, ok := d.pointers[addr]; ok && pd < d.depth: dump.go:108 *)
Definition above (depth : nat) (addr : Z) (m : ptrs) : bool := existsb (fun x => (fst x =? addr) && (snd x <? depth)%nat) m.
(** d.pointers[addr] = d.depth: dump.go:113 *)
Definition put (depth : nat) (addr : Z) (m : ptrs) : ptrs := (addr, depth) :: filter (fun x => negb (fst x =? addr)) m.
(** The result of dump.go:90-123, format.go:121-154: the last value, whether nil or a cycle was found, the number of pointers followed, the chain, the map *)
Record chased := { cVe : sval; cNil : bool; cCycle : bool; cInd : nat; cChain : list Z; cPtrs : ptrs }.
(** dump.go:100-123, format.go:131-154; None: no end within [fuel] rounds *)
Fixpoint chase (h : heap) (fuel : nat) (depth : nat) (m : ptrs) (ve : sval) (indirects : nat) (chain : list Z) : option chased :=
  match fuel with
  | O => None
  | S fuel =>
    match ve with
    | SPtr _ None => Some {| cVe := ve; cNil := true; cCycle := false; cInd := indirects; cChain := chain; cPtrs := m |}
    | SPtr _ (Some (addr, c)) =>
      let chain := chain ++ [addr] in
      if above depth addr m then Some {| cVe := ve; cNil := false; cCycle := true; cInd := indirects; cChain := chain; cPtrs := m |} else
      let m := put depth addr m in
      match cell h c with
      | SIface ty None => Some {| cVe := SIface ty None; cNil := true; cCycle := false; cInd := S indirects; cChain := chain; cPtrs := m |}
      | SIface _ (Some w) => chase h fuel depth m w (S indirects) chain
      | w => chase h fuel depth m w (S indirects) chain
      end
    | _ => Some {| cVe := ve; cNil := false; cCycle := false; cInd := indirects; cChain := chain; cPtrs := m |}
    end
  end.
(** "(0x1->0x2)": dump.go:133-140, format.go:173-180 *)
Fixpoint chainText (chain : list Z) : bytes :=
  match chain with [] => [] | [a] => hexText a | a :: chain => hexText a ++ bs "->" ++ chainText chain end.

(** ** Dump *)
(** dump.go:51-58; the output so far instead of the writer *)
Record dst := { dOut : bytes; dDepth : nat; dPtrs : ptrs; dIgnT : bool; dIgnI : bool }.
(** How a dump ends: normally, with a panic, or not at all (within the fuel): dump.go:251 *)
Inductive dres := DEnd (st : dst) | DPanic | DHang.
(** Sequencing: dump.go:237-244 *)
Definition dbind (r : dres) (f : dst -> dres) : dres := match r with DEnd st => f st | r => r end.
(** d.w.Write: dump.go:126 *)
Definition dw (t : bytes) (st : dst) : dst := {| dOut := dOut st ++ t; dDepth := dDepth st; dPtrs := dPtrs st; dIgnT := dIgnT st; dIgnI := dIgnI st |}.
(** The assignments to the fields of dumpState: dump.go:64, 86, 113, 153, 274, 347, 393 *)
Definition dSetDepth (n : nat) (st : dst) : dst := {| dOut := dOut st; dDepth := n; dPtrs := dPtrs st; dIgnT := dIgnT st; dIgnI := dIgnI st |}.
(** dump.go:86, 113 *)
Definition dSetPtrs (m : ptrs) (st : dst) : dst := {| dOut := dOut st; dDepth := dDepth st; dPtrs := m; dIgnT := dIgnT st; dIgnI := dIgnI st |}.
(** dump.go:153, 274 *)
Definition dSetT (b : bool) (st : dst) : dst := {| dOut := dOut st; dDepth := dDepth st; dPtrs := dPtrs st; dIgnT := b; dIgnI := dIgnI st |}.
(** dump.go:64, 393, 420 *)
Definition dSetI (b : bool) (st : dst) : dst := {| dOut := dOut st; dDepth := dDepth st; dPtrs := dPtrs st; dIgnT := dIgnT st; dIgnI := b |}.
(** bytes.Repeat, strings.Repeat: dump.go:67, 127, 228 *)
Fixpoint repeatBytes (t : bytes) (n : nat) : bytes := match n with O => [] | S n => t ++ repeatBytes t n end.

(** What calling Error or String gives: a text, or a panic with the text %v shows for its value (None: panic(nil)); common.go:114-139, 72-78 *)
Inductive mcall := MReturns (t : bytes) | MPanics (t : option bytes).

Section Spew.
  (** strconv.FormatInt and FormatUint (common.go:154, 159), strconv.Quote (dump.go:359), hex.Dump (dump.go:229) *)
  Variable decimal : Z -> bytes.
  Variable quote : bytes -> bytes.
  Variable hexDump : bytes -> bytes.
  (** The Error or String method found at common.go:92-128, of the value or of a pointer to it, for the settings of the configuration: None without *)
  Variable method : sval -> option mcall.
  (** == of two interfaces: common.go:315 *)
  Variable valueEq : sval -> sval -> bool.
  (** Sprintf("%#v", key): common.go:247 *)
  Variable spewKey : sval -> bytes.
  (** sort.Sort: common.go:340 *)
  Variable sortBy : (entry -> entry -> bool) -> list entry -> list entry.
  Variable cs : config.
  Variable h : heap.

  (** catchPanic writes the panic; the named result stays false: common.go:72-78, 85, 114-139 *)
  Definition methodText (m : mcall) : bytes * bool :=
    match m with
    | MReturns t => if ContinueOnMethod cs then (bs "(" ++ t ++ bs ") ", false) else (t, true)
    | MPanics p => ((if ContinueOnMethod cs then bs "(" else []) ++ match p with Some t => bs "(PANIC=" ++ t ++ bs ")" | None => [] end, false)
    end.
  (** common.go:85-141: what is written, and whether the value was handled *)
  Definition handleMethods (v : sval) : bytes * bool := match method v with Some m => methodText m | None => ([], false) end.

  (** ** Sorting of keys *)
  (** common.go:256-275 *)
  Definition canSortSimply (v : sval) : bool :=
    match v with
    | SBasic _ (BComplex _) | SBasic _ (BAddr _ _ _) => false
    | SBasic _ _ | SArr _ _ => true
    | SHex _ _ _ => true
    | _ => false
    end.
  (** < of strings: common.go:306, 321, 330 *)
  Fixpoint bytesLess (a b : bytes) : bool :=
    match a, b with _, [] => false | [], _ :: _ => true | x :: a, y :: b => (x <? y) || ((x =? y) && bytesLess a b) end.
  (** reflect.Value's String: common.go:306, 321 *)
  Definition valueText (v : sval) : bytes := match v with SBasic _ (BStr s) => s | v => bs "<" ++ typeText v ++ bs " Value>" end.
  (** common.go:295-322; arrays of bytes (SHex) are compared by their bytes *)
  Fixpoint valueSortLess (a b : sval) {struct a} : bool :=
    match a, b with
    | SBasic _ (BBool x), SBasic _ (BBool y) => negb x && y
    | SBasic _ (BInt x), SBasic _ (BInt y) | SBasic _ (BUint x), SBasic _ (BUint y) | SBasic _ (BUintptr x), SBasic _ (BUintptr y) => x <? y
    | SBasic _ (BFloat _ x), SBasic _ (BFloat _ y) => match x, y with Some x, Some y => x <? y | _, _ => false end
    | SBasic _ (BStr x), SBasic _ (BStr y) => bytesLess x y
    | SHex _ _ x, SHex _ _ y => bytesLess x y
    | SArr _ la, SArr _ lb =>
      (fix go (la lb : list sval) {struct la} : bool :=
         match la, lb with
         | av :: la, bv :: lb => if valueEq av bv then go la lb else valueSortLess av bv
         | _, _ => bytesLess (valueText a) (valueText b)
         end) la lb
    | _, _ => bytesLess (valueText a) (valueText b)
    end.
  (** common.go:233-249: whether the keys are sorted by texts, and these *)
  Definition sortTexts (keys : list entry) : option (sval -> bytes) :=
    let byMethod :=
      if negb (DisableMethods cs) && forallb (fun k => snd (handleMethods (fst k))) keys then Some (fun k => fst (handleMethods k)) else None in
    match byMethod with Some f => Some f | None => if SpewKeys cs then Some spewKey else None end.
  (** common.go:326-331 *)
  Definition keyLess (keys : list entry) (a b : entry) : bool :=
    match keys with
    | [] => false
    | (k, _) :: _ =>
      if canSortSimply k then valueSortLess (fst a) (fst b) else
      match sortTexts keys with Some f => bytesLess (f (fst a)) (f (fst b)) | None => valueSortLess (fst a) (fst b) end
    end.
  (** common.go:228-251, 336-341.  None: a panic of Interface() (common.go:247, 315) for keys reached through an unexported field *)
  Definition sortValues (ro : bool) (keys : list entry) : option (list entry) :=
    match keys with
    | [] => Some []
    | (k, _) :: _ =>
      let panics :=
        ro && (if canSortSimply k then match k with SArr _ (_ :: _) | SHex _ _ _ => (1 <? List.length keys)%nat | _ => false end
               else negb (negb (DisableMethods cs) && forallb (fun k => snd (handleMethods (fst k))) keys) && SpewKeys cs) in
      if panics then None else Some (sortBy (keyLess keys) keys)
    end.

  (** ** dump.go *)
  (** dump.go:62-68 *)
  Definition indent (st : dst) : dst := if dIgnI st then dSetI false st else dw (repeatBytes (Indent cs) (dDepth st)) st.
  (** v.Len() and v.Cap(): dump.go:278-284 *)
  Definition lengths (v : sval) : Z * Z :=
    match v with
    | SBasic _ (BStr s) => (lenZ s, 0)
    | SBasic _ (BAddr l c _) => (l, c)
    | SArr _ l => (lenZ l, lenZ l)
    | SSlice _ c s => match s with Some r => (lenZ (elems h r), c) | None => (0, 0) end
    | SHex _ c b => (lenZ b, c)
    | SMap _ m => match m with Some r => (lenZ (entries h r), 0) | None => (0, 0) end
    | _ => (0, 0)
    end.
  (** dump.go:285-300 *)
  Definition lengthText (v : sval) : bytes :=
    let (l, c) := lengths v in
    if negb (l =? 0) || (negb (DisableCapacities cs) && negb (c =? 0)) then
      bs "(" ++ (if negb (l =? 0) then bs "len=" ++ decimal l else []) ++
      (if negb (DisableCapacities cs) && negb (c =? 0) then (if negb (l =? 0) then bs " " else []) ++ bs "cap=" ++ decimal c else []) ++ bs ") "
    else [].
  (** common.go:144-181, dump.go:317-336, 359, 433-437 *)
  Definition basicText (k : basic) : bytes :=
    match k with
    | BBool b => if b then bs "true" else bs "false"
    | BInt n | BUint n => decimal n
    | BFloat t _ | BComplex t => t
    | BStr s => quote s
    | BUintptr p | BAddr _ _ p => hexText p
    end.
  (** strings.Replace(str, "\n", "\n"+indent, -1): dump.go:230 *)
  Definition replaceNewlines (ind str : bytes) : bytes := flat_map (fun c => if c =? 10 then 10 :: ind else [c]) str.
  (** strings.TrimRight with a cutset of bytes (Indent in ASCII): dump.go:231 *)
  Definition trimRight (cut str : bytes) : bytes :=
    rev ((fix go (s : bytes) : bytes := match s with c :: s' => if existsb (Z.eqb c) cut then go s' else s | [] => [] end) (rev str)).
  (** dump.go:227-234 *)
  Definition hexdumpText (depth : nat) (b : bytes) : bytes :=
    let ind := repeatBytes (Indent cs) depth in
    trimRight (Indent cs) (replaceNewlines ind (ind ++ hexDump b)).
  (** dump.go:236-244; [d] is d.dump *)
  Fixpoint sliceLoop (d : sval -> dst -> dres) (l : list sval) (st : dst) : dres :=
    match l with
    | [] => DEnd st
    | v :: l => dbind (d (unpackValue v) st) (fun st => match l with [] => DEnd (dw [10] st) | _ => sliceLoop d l (dw [44; 10] st) end)
    end.
  (** dump.go:390-400.  An invalid Value is handled at dump.go:254-257 *)
  Fixpoint mapLoop (d : sval -> dst -> dres) (l : list entry) (st : dst) : dres :=
    match l with
    | [] => DEnd st
    | (k, v) :: l =>
      dbind (d (unpackValue k) st) (fun st =>
        let st := dSetI true (dw (bs ": ") st) in
        dbind (match v with Some v => d (unpackValue v) st | None => DEnd (dw (bs "<invalid>") st) end) (fun st =>
          match l with [] => DEnd (dw [10] st) | _ => mapLoop d l (dw [44; 10] st) end))
    end.
  (** dump.go:413-427; [d] takes whether the value was reached through an unexported field *)
  Fixpoint structLoop (d : bool -> sval -> dst -> dres) (ro : bool) (l : list (bytes * bool * sval)) (st : dst) : dres :=
    match l with
    | [] => DEnd st
    | (name, exported, v) :: l =>
      let st := indent st in
      let st := dSetI true (dw (name ++ bs ": ") st) in
      dbind (d (ro || negb exported) (unpackValue v) st) (fun st => match l with [] => DEnd (dw [10] st) | _ => structLoop d ro l (dw [44; 10] st) end)
    end.
  (** dump.go:346-356, 379-404, 407-431: the braces around the elements *)
  Definition braces (body : dst -> dres) (st : dst) : dres :=
    let st := dw [123; 10] st in
    let st := dSetDepth (S (dDepth st)) st in
    dbind (if negb (MaxDepth cs =? 0)%nat && (MaxDepth cs <? dDepth st)%nat then DEnd (dw (bs "<max depth reached>" ++ [10]) (indent st)) else body st) (fun st =>
      let st := dSetDepth (pred (dDepth st)) st in
      DEnd (dw [125] (indent st))).
  (** dump.go:81-157; [d] is d.dump *)
  Definition dumpPtr (d : sval -> dst -> dres) (fuel : nat) (v : sval) (st : dst) : dres :=
    let m := forget (dDepth st) (dPtrs st) in
    match chase h fuel (dDepth st) m v 0 [] with
    | None => DHang
    | Some c =>
      let st := dSetPtrs (cPtrs c) st in
      let st := dw (bs "(" ++ repeatBytes (bs "*") (cInd c) ++ typeText (cVe c) ++ bs ")") st in
      let st := if negb (DisablePointerAddresses cs) && (0 <? List.length (cChain c))%nat then dw (bs "(" ++ chainText (cChain c) ++ bs ")") st else st in
      let st := dw (bs "(") st in
      dbind (if cNil c then DEnd (dw (bs "<nil>") st) else if cCycle c then DEnd (dw (bs "<already shown>") st) else d (cVe c) (dSetT true st))
        (fun st => DEnd (dw (bs ")") st))
    end.
  (** dump.go:251-449; the fuel bounds the nesting of the calls and the rounds of the loops of dumpPtr *)
  Fixpoint dump (fuel : nat) (ro : bool) (v : sval) (st : dst) : dres :=
    match fuel with
    | O => DHang
    | S fuel =>
      match v with
      | SPtr _ _ => dumpPtr (dump fuel ro) fuel v (indent st)
      | _ =>
        let st := if negb (dIgnT st) then dw (bs "(" ++ typeText v ++ bs ") ") (indent st) else st in
        let st := dSetT false st in
        let st := dw (lengthText v) st in
        let hm := match v with SIface _ _ => ([], false) | _ => if negb (DisableMethods cs) then handleMethods v else ([], false) end in
        let st := dw (fst hm) st in
        if snd hm then DEnd st else
        match v with
        | SBasic _ k => DEnd (dw (basicText k) st)
        | SPtr _ _ => DEnd st
        | SIface _ None => DEnd (dw (bs "<nil>") st)
        | SIface _ (Some _) => DEnd st
        | SSlice _ _ None | SMap _ None => DEnd (dw (bs "<nil>") st)
        | SSlice _ _ (Some r) => braces (sliceLoop (dump fuel ro) (elems h r)) st
        | SArr _ l => braces (sliceLoop (dump fuel ro) l) st
        | SHex _ _ b => braces (fun st => DEnd (dw (hexdumpText (dDepth st) b) st)) st
        | SMap _ (Some r) =>
          braces (fun st =>
            match (if SortKeys cs then sortValues ro (entries h r) else Some (entries h r)) with
            | None => DPanic
            | Some l => mapLoop (dump fuel ro) l st
            end) st
        | SStruct _ fs => braces (structLoop (dump fuel) ro fs) st
        end
      end
    end.
  (** dump.go:463-464: a new dumpState *)
  Definition newDump (out : bytes) : dst := {| dOut := out; dDepth := 0; dPtrs := []; dIgnT := false; dIgnI := false |}.
  (** dump.go:453-468.  None: it does not end; Some None: a panic *)
  Fixpoint fdump (fuel : nat) (args : list (option sval)) (out : bytes) : option (option bytes) :=
    match args with
    | [] => Some (Some out)
    | None :: args => fdump fuel args (out ++ bs "(interface {}) <nil>" ++ [10])
    | Some v :: args =>
      match dump fuel false v (newDump out) with
      | DEnd st => fdump fuel args (dOut st ++ [10])
      | DPanic => Some None
      | DHang => None
      end
    end.

  (** ** format.go *)
  (** format.go:34-41; the output so far instead of fmt.State *)
  Record fst_ := { fOut : bytes; fDepth : nat; fPtrs : ptrs; fIgnT : bool }.
  (** How it ends: format.go:201 *)
  Inductive fres := FEnd (st : fst_) | FPanic | FHang.
  (** Sequencing: format.go:273-279 *)
  Definition fbind (r : fres) (f : fst_ -> fres) : fres := match r with FEnd st => f st | r => r end.
  (** f.fs.Write: format.go:217 *)
  Definition fw (t : bytes) (st : fst_) : fst_ := {| fOut := fOut st ++ t; fDepth := fDepth st; fPtrs := fPtrs st; fIgnT := fIgnT st |}.
  (** The assignments to the fields of formatState: format.go:96, 117, 144, 192, 221, 268, 277, 281 *)
  Definition fSetDepth (n : nat) (st : fst_) : fst_ := {| fOut := fOut st; fDepth := n; fPtrs := fPtrs st; fIgnT := fIgnT st |}.
  (** format.go:117, 144 *)
  Definition fSetPtrs (m : ptrs) (st : fst_) : fst_ := {| fOut := fOut st; fDepth := fDepth st; fPtrs := m; fIgnT := fIgnT st |}.
  (** format.go:96, 192, 221, 277 *)
  Definition fSetT (b : bool) (st : fst_) : fst_ := {| fOut := fOut st; fDepth := fDepth st; fPtrs := fPtrs st; fIgnT := b |}.
  (** The flags '#' and '+': format.go:107, 172 *)
  Variable sharp plus : bool.
  (** format.go:94-102 *)
  Definition fUnpack (f : sval -> fst_ -> fres) (v : sval) (st : fst_) : fres :=
    match v with
    | SIface _ None => f v (fSetT false st)
    | SIface _ (Some w) => f w (fSetT false st)
    | _ => f v st
    end.
  (** strings.Count(s, "*"): format.go:164 *)
  Definition countStars (s : bytes) : nat := List.length (filter (Z.eqb 42) s).
  (** format.go:272-279 *)
  Fixpoint fSliceLoop (f : sval -> fst_ -> fres) (first : bool) (l : list sval) (st : fst_) : fres :=
    match l with
    | [] => FEnd st
    | v :: l =>
      let st := if first then st else fw [32] st in
      fbind (fUnpack f v (fSetT true st)) (fSliceLoop f false l)
    end.
  (** format.go:314-323.  unpackValue does nothing to an invalid Value, format writes it at 204-207 *)
  Fixpoint fMapLoop (f : sval -> fst_ -> fres) (first : bool) (l : list entry) (st : fst_) : fres :=
    match l with
    | [] => FEnd st
    | (k, v) :: l =>
      let st := if first then st else fw [32] st in
      fbind (fUnpack f k (fSetT true st)) (fun st =>
        let st := fSetT true (fw [58] st) in
        fbind (match v with Some v => fUnpack f v st | None => FEnd (fw (bs "<invalid>") st) end) (fMapLoop f false l))
    end.
  (** format.go:335-346 *)
  Fixpoint fStructLoop (f : bool -> sval -> fst_ -> fres) (ro first : bool) (l : list (bytes * bool * sval)) (st : fst_) : fres :=
    match l with
    | [] => FEnd st
    | (name, exported, v) :: l =>
      let st := if first then st else fw [32] st in
      let st := if plus || sharp then fw (name ++ [58]) st else st in
      fbind (fUnpack (f (ro || negb exported)) v st) (fStructLoop f ro false l)
    end.
  (** format.go:267-282, 305-326, 330-349: the brackets around the elements *)
  Definition brackets (opening closing : bytes) (body : fst_ -> fres) (st : fst_) : fres :=
    let st := fw opening st in
    let st := fSetDepth (S (fDepth st)) st in
    fbind (if negb (MaxDepth cs =? 0)%nat && (MaxDepth cs <? fDepth st)%nat then FEnd (fw (bs "<max>") st) else body st) (fun st =>
      FEnd (fw closing (fSetDepth (pred (fDepth st)) st))).
  (** format.go:105-195; [f] is f.format *)
  Definition formatPtr (f : sval -> fst_ -> fres) (fuel : nat) (v : sval) (st : fst_) : fres :=
    match v with
    | SPtr _ None => if negb sharp || fIgnT st then FEnd (fw (bs "<nil>") st) else
      FEnd (fw (bs "(" ++ typeText v ++ bs ")" ++ bs "<nil>") (fSetPtrs (forget (fDepth st) (fPtrs st)) st))
    | _ =>
      let m := forget (fDepth st) (fPtrs st) in
      match chase h fuel (fDepth st) m v 0 [] with
      | None => FHang
      | Some c =>
        let st := fSetPtrs (cPtrs c) st in
        let st :=
          if sharp && negb (fIgnT st) then fw (bs "(" ++ repeatBytes (bs "*") (cInd c) ++ typeText (cVe c) ++ bs ")") st
          else fw (bs "<" ++ repeatBytes (bs "*") (cInd c + (if cNil c || cCycle c then countStars (typeText (cVe c)) else 0))%nat ++ bs ">") st in
        let st := if plus && (0 <? List.length (cChain c))%nat then fw (bs "(" ++ chainText (cChain c) ++ bs ")") st else st in
        if cNil c then FEnd (fw (bs "<nil>") st) else if cCycle c then FEnd (fw (bs "<shown>") st) else f (cVe c) (fSetT true st)
      end
    end.
  (** common.go:144-181, format.go:238-257, 285, 351-355: as in Dump, but strings are not quoted *)
  Definition fBasicText (k : basic) : bytes := match k with BStr s => s | k => basicText k end.
  (** format.go:201-367 *)
  Fixpoint format (fuel : nat) (ro : bool) (v : sval) (st : fst_) : fres :=
    match fuel with
    | O => FHang
    | S fuel =>
      match v with
      | SPtr _ _ => formatPtr (format fuel ro) fuel v st
      | _ =>
        let st := if negb (fIgnT st) && sharp then fw (bs "(" ++ typeText v ++ bs ")") st else st in
        let st := fSetT false st in
        let hm := match v with SIface _ _ => ([], false) | _ => if negb (DisableMethods cs) then handleMethods v else ([], false) end in
        let st := fw (fst hm) st in
        if snd hm then FEnd st else
        match v with
        | SBasic _ k => FEnd (fw (fBasicText k) st)
        | SPtr _ _ => FEnd st
        | SIface _ None => FEnd (fw (bs "<nil>") st)
        | SIface _ (Some _) => FEnd st
        | SSlice _ _ None | SMap _ None => FEnd (fw (bs "<nil>") st)
        | SSlice _ _ (Some r) => brackets (bs "[") (bs "]") (fSliceLoop (format fuel ro) true (elems h r)) st
        | SArr _ l => brackets (bs "[") (bs "]") (fSliceLoop (format fuel ro) true l) st
        | SHex _ _ b => brackets (bs "[") (bs "]") (fSliceLoop (format fuel ro) true (map (fun c => SBasic (bs "uint8") (BUint c)) b)) st
        | SMap _ (Some r) =>
          brackets (bs "map[") (bs "]") (fun st =>
            match (if SortKeys cs then sortValues ro (entries h r) else Some (entries h r)) with
            | None => FPanic
            | Some l => fMapLoop (format fuel ro) true l st
            end) st
        | SStruct _ fs => brackets (bs "{") (bs "}") (fStructLoop (format fuel) ro true fs) st
        end
      end
    end.
  (** format.go:371-390 for the verb v, with a new formatState, 394-398.  None: it does not end; Some None: a panic *)
  Definition formatV (fuel : nat) (v : option sval) : option (option bytes) :=
    match v with
    | None => Some (Some ((if sharp then bs "(interface {})" else []) ++ bs "<nil>"))
    | Some v =>
      match format fuel false v {| fOut := []; fDepth := 0; fPtrs := []; fIgnT := false |} with
      | FEnd st => Some (Some (fOut st)) | FPanic => Some None | FHang => None
      end
    end.
End Spew.
