(** Model of test/go-difflib/difflib/difflib.go (the copy of go-difflib that the test helpers of the repository use): the sequence
    matcher with its caches, the op codes, the grouped op codes, the unified and the context diff, SplitLines.

    Go's int is [Z]; the arithmetic of GetGroupedOpCodes, the only one on a number that the caller chooses freely, wraps around at
    64 bits ([int64]); the other numbers are positions in slices.  A slice of lines is a list: the matcher keeps the slices of its
    caller, who is taken not to write to them.  A map is a list of keys and values; the code never depends on the order of a map. *)
From Verif Require Import Base.

(** string equality, ==; of strings, difflib.go:265, 270 and the keys of the maps of 153-189 *)
Definition streq (a b : bytes) : bool := if list_eq_dec Z.eq_dec a b then true else false.
(** A set of strings, map[string]struct{} (difflib.go:93): is the key there? *)
Definition inb (s : bytes) (l : list bytes) : bool := existsb (streq s) l.

(** difflib.go:26-38 are [Z.min] and [Z.max]; 47-51 and 53-59 *)
Record Match := mkMatch { mA : Z; mB : Z; mSize : Z }.
(** difflib.go:53-59 *)
Record OpCode := mkOp { Tag : Z; I1 : Z; I2 : Z; J1 : Z; J2 : Z }.
(** The tags 'e', 'r', 'd', 'i', difflib.go:366-372 *)
Definition tag_e : Z := 101.
(** difflib.go:366 *)
Definition tag_r : Z := 114.
(** difflib.go:368 *)
Definition tag_d : Z := 100.
(** difflib.go:370 *)
Definition tag_i : Z := 105.

(** * The index of b: chainB, difflib.go:151-190 *)

(** map[string][]int: reading ([nil] for a missing key) and writing; difflib.go:155, 157, 243 *)
Fixpoint get (m : list (bytes * list Z)) (s : bytes) : list Z :=
  match m with
  | [] => []
  | (k, v) :: r => if streq k s then v else get r s
  end.
Fixpoint put (m : list (bytes * list Z)) (s : bytes) (v : list Z) : list (bytes * list Z) :=
  match m with
  | [] => [(s, v)]
  | (k, v') :: r => if streq k s then (k, v) :: r else (k, v') :: put r s v
  end.
(** difflib.go:169-171 and 184-186: delete the keys [ks] *)
Definition purge (m : list (bytes * list Z)) (ks : list bytes) : list (bytes * list Z) :=
  filter (fun kv => negb (inb (fst kv) ks)) m.

(** difflib.go:153-158 *)
Fixpoint indexLines (i : Z) (b : list bytes) (m : list (bytes * list Z)) : list (bytes * list Z) :=
  match b with
  | [] => m
  | s :: r => indexLines (i + 1) r (put m s (get m s ++ [i]))
  end.
(** difflib.go:161-172: the junk keys.  IsJunk is a function of the caller, taken to be pure. *)
Definition junkOf (IsJunk : option (bytes -> bool)) (m : list (bytes * list Z)) : list bytes :=
  match IsJunk with None => [] | Some f => filter f (map fst m) end.
(** difflib.go:175-187: the popular keys; n is len(b) *)
Definition popularOf (autoJunk : bool) (n : Z) (m : list (bytes * list Z)) : list bytes :=
  if autoJunk && (200 <=? n) then map fst (filter (fun kv => n / 100 + 1 <? lenZ (snd kv)) m) else [].
(** difflib.go:151-190: bJunk and b2j (bPopular is never read) *)
Definition chainB (IsJunk : option (bytes -> bool)) (autoJunk : bool) (b : list bytes) : list bytes * list (bytes * list Z) :=
  let b2j := indexLines 0 b [] in
  let junk := junkOf IsJunk b2j in
  let b2j := purge b2j junk in
  (junk, purge b2j (popularOf autoJunk (lenZ b) b2j)).

(** * Longest match: difflib.go:221-289 *)

(** map[int]int: reading (0 for a missing key); writing is consing *)
Fixpoint get2 (m : list (Z * Z)) (j : Z) : Z :=
  match m with
  | [] => 0
  | (k, v) :: r => if k =? j then v else get2 r j
  end.

Section Longest.
  Variable a b : list bytes.
  Variable bJunk : list bytes.
  Variable b2j : list (bytes * list Z).
  Variables alo ahi blo bhi : Z.

  (** difflib.go:243-256: the positions js of a[i] in b; best is (besti, bestj, bestsize) *)
  Fixpoint scanB (i : Z) (j2len : list (Z * Z)) (js : list Z) (newj2len : list (Z * Z)) (best : Match) : list (Z * Z) * Match :=
    match js with
    | [] => (newj2len, best)
    | j :: js =>
      if j <? blo then scanB i j2len js newj2len best
      else if bhi <=? j then (newj2len, best)
      else
        let k := get2 j2len (j - 1) + 1 in
        scanB i j2len js ((j, k) :: newj2len) (if mSize best <? k then mkMatch (i - k + 1) (j - k + 1) k else best)
    end.

  (** difflib.go:238-258.  [None]: index out of range. *)
  Fixpoint scanA (fuel : nat) (i : Z) (j2len : list (Z * Z)) (best : Match) : option Match :=
    match fuel with
    | O => Some best
    | S fuel =>
      let? s := nthZ a i in
      let '(j2len, best) := scanB i j2len (get b2j s) [] best in
      scanA fuel (i + 1) j2len best
    end.

  (** difflib.go:192-195 *)
  Definition isBJunk (s : bytes) : bool := inb s bJunk.

  (** difflib.go:264-267 and 281-284 *)
  Fixpoint extendLeft (fuel : nat) (junk : bool) (m : Match) : option Match :=
    match fuel with
    | O => None
    | S fuel =>
      if (alo <? mA m) && (blo <? mB m) then
        let? y := nthZ b (mB m - 1) in
        let? x := nthZ a (mA m - 1) in
        if Bool.eqb (isBJunk y) junk && streq x y
        then extendLeft fuel junk (mkMatch (mA m - 1) (mB m - 1) (mSize m + 1))
        else Some m
      else Some m
    end.
  (** difflib.go:268-272 and 285-289 *)
  Fixpoint extendRight (fuel : nat) (junk : bool) (m : Match) : option Match :=
    match fuel with
    | O => None
    | S fuel =>
      if (mA m + mSize m <? ahi) && (mB m + mSize m <? bhi) then
        let? y := nthZ b (mB m + mSize m) in
        let? x := nthZ a (mA m + mSize m) in
        if Bool.eqb (isBJunk y) junk && streq x y
        then extendRight fuel junk (mkMatch (mA m) (mB m) (mSize m + 1))
        else Some m
      else Some m
    end.

  (** difflib.go:221-292.  [None]: a panic (with ahi < alo the loop of line 239 ends in one); never a lack of fuel (proved). *)
  Definition findLongestMatch : option Match :=
    if ahi <? alo then None
    else
      let fuel := S (Z.to_nat (ahi - alo)) in
      let? m := scanA (Z.to_nat (ahi - alo)) alo [] (mkMatch alo blo 0) in
      let? m := extendLeft fuel false m in
      let? m := extendRight fuel false m in
      let? m := extendLeft fuel true m in
      extendRight fuel true m.
End Longest.

(** difflib.go:311-325.  [None]: a panic, or lack of fuel (proved not to happen below). *)
Fixpoint matchBlocks (fuel : nat) (a b : list bytes) (bJunk : list bytes) (b2j : list (bytes * list Z))
    (alo ahi blo bhi : Z) (matched : list Match) : option (list Match) :=
  match fuel with
  | O => None
  | S fuel =>
    let? m := findLongestMatch a b bJunk b2j alo ahi blo bhi in
    let i := mA m in let j := mB m in let k := mSize m in
    if 0 <? k then
      let? matched := if (alo <? i) && (blo <? j) then matchBlocks fuel a b bJunk b2j alo i blo j matched else Some matched in
      let matched := matched ++ [m] in
      if (i + k <? ahi) && (j + k <? bhi) then matchBlocks fuel a b bJunk b2j (i + k) ahi (j + k) bhi matched else Some matched
    else Some matched
  end.

(** difflib.go:329-351: the loop over matched, with i1, j1, k1 *)
Fixpoint collapse (i1 j1 k1 : Z) (matched : list Match) : list Match :=
  match matched with
  | [] => if 0 <? k1 then [mkMatch i1 j1 k1] else []
  | m :: r =>
    if (i1 + k1 =? mA m) && (j1 + k1 =? mB m) then collapse i1 j1 (k1 + mSize m) r
    else (if 0 <? k1 then [mkMatch i1 j1 k1] else []) ++ collapse (mA m) (mB m) (mSize m) r
  end.

(** difflib.go:310-356 *)
Definition computeBlocks (a b : list bytes) (bJunk : list bytes) (b2j : list (bytes * list Z)) : option (list Match) :=
  let? matched := matchBlocks (S (List.length a)) a b bJunk b2j 0 (lenZ a) 0 (lenZ b) [] in
  Some (collapse 0 0 0 matched ++ [mkMatch (lenZ a) (lenZ b) 0]).

(** difflib.go:377-406 *)
Fixpoint codesOf (i j : Z) (matching : list Match) : list OpCode :=
  match matching with
  | [] => []
  | m :: r =>
    let ai := mA m in let bj := mB m in let size := mSize m in
    let tag := if (i <? ai) && (j <? bj) then tag_r else if i <? ai then tag_d else if j <? bj then tag_i else 0 in
    (if 0 <? tag then [mkOp tag i ai j bj] else []) ++
    (if 0 <? size then [mkOp tag_e ai (ai + size) bj (bj + size)] else []) ++
    codesOf (ai + size) (bj + size) r
  end.

(** * The matcher: difflib.go:87-98.  A nil cache is [None]; fullBCount is added in DiffRatioModel.v. *)
Record matcher := mkMatcher {
  seqA : list bytes;
  seqB : list bytes;
  index : list (bytes * list Z);
  isJunk : option (bytes -> bool);
  autoJunk : bool;
  junkB : list bytes;
  blocksCache : option (list Match);
  codesCache : option (list OpCode)
}.

(** difflib.go:129-136; the addresses compared there are never equal: that of a parameter is new *)
Definition SetSeq1 (m : matcher) (a : list bytes) : matcher :=
  mkMatcher a (seqB m) (index m) (isJunk m) (autoJunk m) (junkB m) None None.
(** difflib.go:140-149 *)
Definition SetSeq2 (m : matcher) (b : list bytes) : matcher :=
  let '(junk, b2j) := chainB (isJunk m) (autoJunk m) b in
  mkMatcher (seqA m) b b2j (isJunk m) (autoJunk m) junk None None.
(** difflib.go:115-118 *)
Definition SetSeqs (m : matcher) (a b : list bytes) : matcher := SetSeq2 (SetSeq1 m a) b.
(** difflib.go:106-112 *)
Definition NewMatcherWithJunk (a b : list bytes) (autoJunk : bool) (isJunk : option (bytes -> bool)) : matcher :=
  SetSeqs (mkMatcher [] [] [] isJunk autoJunk [] None None) a b.
(** difflib.go:100-104 *)
Definition NewMatcher (a b : list bytes) : matcher := NewMatcherWithJunk a b true None.

(** difflib.go:305-356 *)
Definition GetMatchingBlocks (m : matcher) : option (matcher * list Match) :=
  match blocksCache m with
  | Some bl => Some (m, bl)
  | None =>
    let? bl := computeBlocks (seqA m) (seqB m) (junkB m) (index m) in
    Some (mkMatcher (seqA m) (seqB m) (index m) (isJunk m) (autoJunk m) (junkB m) (Some bl) (codesCache m), bl)
  end.

(** m.opCodes = codes; difflib.go:405 *)
Definition setCodes (m : matcher) (codes : list OpCode) : matcher :=
  mkMatcher (seqA m) (seqB m) (index m) (isJunk m) (autoJunk m) (junkB m) (blocksCache m) (Some codes).

(** difflib.go:373-407 *)
Definition GetOpCodes (m : matcher) : option (matcher * list OpCode) :=
  match codesCache m with
  | Some codes => Some (m, codes)
  | None =>
    let? (m, matching) := GetMatchingBlocks m in
    let codes := codesOf 0 0 matching in
    Some (setCodes m codes, codes)
  end.

(** 64 bit arithmetic wraps around *)
Definition int64 (z : Z) : Z := (z + 2 ^ 63) mod 2 ^ 64 - 2 ^ 63.

(** difflib.go:423-426 *)
Definition fixFirst (n : Z) (c : OpCode) : OpCode :=
  if Tag c =? tag_e
  then mkOp (Tag c) (Z.max (I1 c) (int64 (I2 c - n))) (I2 c) (Z.max (J1 c) (int64 (J2 c - n))) (J2 c)
  else c.
(** difflib.go:428-431, and 440-441 *)
Definition cutLast (n : Z) (c : OpCode) : OpCode :=
  mkOp (Tag c) (I1 c) (Z.min (I2 c) (int64 (I1 c + n))) (J1 c) (Z.min (J2 c) (int64 (J1 c + n))).
Definition fixLast (n : Z) (c : OpCode) : OpCode := if Tag c =? tag_e then cutLast n c else c.
(** difflib.go:422-431, for a slice that is not empty *)
Fixpoint fixEnd (n : Z) (l : list OpCode) : list OpCode :=
  match l with
  | [] => []
  | [c] => [fixLast n c]
  | c :: r => c :: fixEnd n r
  end.
(** difflib.go:422-431 *)
Definition fixCodes (n : Z) (l : list OpCode) : list OpCode :=
  match l with
  | [] => []
  | c :: r => fixEnd n (fixFirst n c :: r)
  end.

(** difflib.go:433-451; [group] is the current group *)
Fixpoint groupLoop (n nn : Z) (group : list OpCode) (codes : list OpCode) : list (list OpCode) :=
  match codes with
  | [] =>
    match group with
    | [] => []
    | [c] => if Tag c =? tag_e then [] else [group]
    | _ => [group]
    end
  | c :: r =>
    if (Tag c =? tag_e) && (nn <? int64 (I2 c - I1 c)) then
      (group ++ [cutLast n c]) ::
      groupLoop n nn [mkOp (Tag c) (Z.max (I1 c) (int64 (I2 c - n))) (I2 c) (Z.max (J1 c) (int64 (J2 c - n))) (J2 c)] r
    else groupLoop n nn (group ++ [c]) r
  end.

(** difflib.go:413-452.  The fixing up writes to the slice that GetOpCodes returned, which is the cached one. *)
Definition GetGroupedOpCodes (m : matcher) (n : Z) : option (matcher * list (list OpCode)) :=
  let n := if n <? 0 then 3 else n in
  let? (m, codes) := GetOpCodes m in
  let nn := int64 (n + n) in
  match codes with
  | [] => Some (m, groupLoop n nn [] (fixCodes n [mkOp tag_e 0 1 0 1]))
  | _ => let codes := fixCodes n codes in Some (setCodes m codes, groupLoop n nn [] codes)
  end.

(** * Text *)

(** diff.A[i:j].  [None]: out of range (for the capacity of the slice, taken to be its length). difflib.go:602, 610, 617, 718, 734. *)
Definition slice (l : list bytes) (i j : Z) : option (list bytes) :=
  if (0 <=? i) && (i <=? j) && (j <=? lenZ l) then Some (firstn (Z.to_nat (j - i)) (skipn (Z.to_nat i) l)) else None.

(** difflib.go:529-538 *)
Record Diff := mkDiff {
  dA : list bytes; FromFile : bytes; FromDate : bytes;
  dB : list bytes; ToFile : bytes; ToDate : bytes;
  Eol : bytes; Context : Z
}.

Section Text.
  (** The text of an int by fmt's %d; and fmt.Sprintf without arguments from a '%' on, if flags, and then neither the end of the
      format, nor a '%', nor an ASCII letter follow: widths, precisions, argument indexes, other verbs. *)
  Variable decimal : Z -> bytes.
  Variable sprintfOther : bytes -> bytes.

  (** The flags of package fmt, for [sprintf] below (difflib.go:563); not code of the repository *)
  Definition isFlag (c : Z) : bool := existsb (Z.eqb c) (bs "#0+- ").
  (** ASCII letters, for [sprintf] below (difflib.go:563) *)
  Definition isLetter (c : Z) : bool := ((65 <=? c) && (c <=? 90)) || ((97 <=? c) && (c <=? 122)).

  (** fmt.Sprintf(format), without arguments, as in w of difflib.go:562-565 and 672-677 when it is called with one argument.  After a
      '%' ([verb]): flags are skipped, then a verb.  Not code of the repository: this is what package fmt does. *)
  Fixpoint sprintf (verb : option bytes) (format : bytes) : bytes :=
    match verb with
    | None =>
      match format with
      | [] => []
      | c :: r => if c =? 37 then sprintf (Some r) r else c :: sprintf None r
      end
    | Some whole =>
      match format with
      | [] => bs "%!(NOVERB)"
      | c :: r =>
        if isFlag c then sprintf verb r
        else if c =? 37 then 37 :: sprintf None r
        else if isLetter c then bs "%!" ++ [c] ++ bs "(MISSING)" ++ sprintf None r
        else sprintfOther whole
      end
    end.
  (** fmt.Sprintf as called in difflib.go:563 and 673 *)
  Definition Sprintf (format : bytes) : bytes := sprintf None format.

  (** difflib.go:515-526 *)
  Definition formatRangeUnified (start stop : Z) : bytes :=
    let beginning := start + 1 in
    let length := stop - start in
    if length =? 1 then decimal beginning
    else
      let beginning := if length =? 0 then beginning - 1 else beginning in
      decimal beginning ++ bs "," ++ decimal length.

  (** for _, line := range l { w(prefix + line) }; difflib.go:602-606, 610-614, 617-621 *)
  Definition lines (prefix : bytes) (l : list bytes) : list bytes := map (fun line => Sprintf (prefix ++ line)) l.

  (** difflib.go:567-569 *)
  Definition eolOf (d : Diff) : bytes := match Eol d with [] => [10] | e => e end.
  (** difflib.go:576-583 and 695-702 *)
  Definition dateOf (date : bytes) : bytes := match date with [] => [] | _ => 9 :: date end.

  (** difflib.go:600-622: what w writes for one op code *)
  Definition unifiedCode (d : Diff) (c : OpCode) : option (list bytes) :=
    if Tag c =? tag_e then
      let? l := slice (dA d) (I1 c) (I2 c) in Some (lines (bs " ") l)
    else
      let? l1 := if (Tag c =? tag_r) || (Tag c =? tag_d)
                 then let? l := slice (dA d) (I1 c) (I2 c) in Some (lines (bs "-") l) else Some [] in
      let? l2 := if (Tag c =? tag_r) || (Tag c =? tag_i)
                 then let? l := slice (dB d) (J1 c) (J2 c) in Some (lines (bs "+") l) else Some [] in
      Some (l1 ++ l2).
  (** difflib.go:599-623 *)
  Fixpoint unifiedCodes (d : Diff) (g : list OpCode) : option (list bytes) :=
    match g with
    | [] => Some []
    | c :: r =>
      let? l := unifiedCode d c in
      let? l' := unifiedCodes d r in
      Some (l ++ l')
    end.
  (** difflib.go:593, 707: g[len(g)-1] *)
  Fixpoint lastOf (c : OpCode) (g : list OpCode) : OpCode := match g with [] => c | c :: r => lastOf c r end.

  (** difflib.go:593-623: one group *)
  Definition unifiedGroup (d : Diff) (g : list OpCode) : option (list bytes) :=
    match g with
    | [] => None
    | first :: r =>
      let final := lastOf first r in
      let range1 := formatRangeUnified (I1 first) (I2 final) in
      let range2 := formatRangeUnified (J1 first) (J2 final) in
      let? l := unifiedCodes d g in
      Some ((bs "@@ -" ++ range1 ++ bs " +" ++ range2 ++ bs " @@" ++ eolOf d) :: l)
    end.
  Fixpoint unifiedGroups (d : Diff) (gs : list (list OpCode)) : option (list bytes) :=
    match gs with
    | [] => Some []
    | g :: r =>
      let? l := unifiedGroup d g in
      let? l' := unifiedGroups d r in
      Some (l ++ l')
    end.
  (** difflib.go:584-591 *)
  Definition unifiedHeader (d : Diff) : list bytes :=
    [bs "--- " ++ FromFile d ++ dateOf (FromDate d) ++ eolOf d; bs "+++ " ++ ToFile d ++ dateOf (ToDate d) ++ eolOf d].

  (** difflib.go:571-626: the strings written, one after the other.  [None]: panic. *)
  Definition unifiedPieces (d : Diff) : option (list bytes) :=
    let? (_, gs) := GetGroupedOpCodes (NewMatcher (dA d) (dB d)) (Context d) in
    match gs with
    | [] => Some []
    | _ => let? l := unifiedGroups d gs in Some (unifiedHeader d ++ l)
    end.

  (** difflib.go:629-633: into a bytes.Buffer, which never refuses a byte *)
  Definition GetUnifiedDiffString (d : Diff) : option bytes :=
    let? l := unifiedPieces d in Some (List.concat l).

  (** difflib.go:636-647 *)
  Definition formatRangeContext (start stop : Z) : bytes :=
    let beginning := start + 1 in
    let length := stop - start in
    let beginning := if length =? 0 then beginning - 1 else beginning in
    if length <=? 1 then decimal beginning
    else decimal beginning ++ bs "," ++ decimal (beginning + length - 1).

  (** difflib.go:683-688 *)
  Definition prefixOf (tag : Z) : bytes :=
    if tag =? tag_i then bs "+ " else if tag =? tag_d then bs "- " else if tag =? tag_r then bs "! "
    else if tag =? tag_e then bs "  " else [].

  (** difflib.go:714-721 (side = true) and 730-737: the lines of the codes of a group, of a or of b *)
  Fixpoint contextLines (d : Diff) (side : bool) (g : list OpCode) : option (list bytes) :=
    match g with
    | [] => Some []
    | c :: r =>
      let? l := if Tag c =? (if side then tag_i else tag_d) then Some []
                else let? l := if side then slice (dA d) (I1 c) (I2 c) else slice (dB d) (J1 c) (J2 c) in
                     Some (lines (prefixOf (Tag c)) l) in
      let? l' := contextLines d side r in
      Some (l ++ l')
    end.
  (** difflib.go:712-724 and 728-740: they are shown if the group has a change on that side *)
  Definition contextSide (d : Diff) (side : bool) (g : list OpCode) : option (list bytes) :=
    if existsb (fun c => (Tag c =? tag_r) || (Tag c =? (if side then tag_d else tag_i))) g then contextLines d side g else Some [].

  (** difflib.go:707-740 *)
  Definition contextGroup (d : Diff) (g : list OpCode) : option (list bytes) :=
    match g with
    | [] => None
    | first :: r =>
      let final := lastOf first r in
      let? l1 := contextSide d true g in
      let? l2 := contextSide d false g in
      Some ([Sprintf (bs "***************" ++ eolOf d);
             bs "*** " ++ formatRangeContext (I1 first) (I2 final) ++ bs " ****" ++ eolOf d] ++ l1 ++
            [bs "--- " ++ formatRangeContext (J1 first) (J2 final) ++ bs " ----" ++ eolOf d] ++ l2)
    end.
  Fixpoint contextGroups (d : Diff) (gs : list (list OpCode)) : option (list bytes) :=
    match gs with
    | [] => Some []
    | g :: r =>
      let? l := contextGroup d g in
      let? l' := contextGroups d r in
      Some (l ++ l')
    end.
  (** difflib.go:703-704 *)
  Definition contextHeader (d : Diff) : list bytes :=
    [bs "*** " ++ FromFile d ++ dateOf (FromDate d) ++ eolOf d; bs "--- " ++ ToFile d ++ dateOf (ToDate d) ++ eolOf d].
  (** difflib.go:690-743 *)
  Definition contextPieces (d : Diff) : option (list bytes) :=
    let? (_, gs) := GetGroupedOpCodes (NewMatcher (dA d) (dB d)) (Context d) in
    match gs with
    | [] => Some []
    | _ => let? l := contextGroups d gs in Some (contextHeader d ++ l)
    end.
  (** difflib.go:746-750 *)
  Definition GetContextDiffString (d : Diff) : option bytes :=
    let? l := contextPieces d in Some (List.concat l).
End Text.

(** * Writing: bufio.NewWriter (4096 bytes), not code of the repository *)
Section Writer.
  (** The writer of the caller: a state, and Write, which takes all bytes or fails with an error *)
  Variable W error : Type.
  Variable Write : W -> bytes -> W * option error.

  (** The default size of a buffer; of bufio.NewWriter, difflib.go:560 *)
  Definition bufSize : nat := Z.to_nat 4096.

  (** The buffered bytes, the first error, the writer below; difflib.go:560 *)
  Record bufio := mkBufio { buffered : bytes; bufErr : option error; under : W }.

  (** bufio.Writer.Flush; difflib.go:561, not code of the repository *)
  Definition Flush (b : bufio) : bufio :=
    match bufErr b with
    | Some _ => b
    | None =>
      match buffered b with
      | [] => b
      | t => match Write (under b) t with
             | (w, None) => mkBufio [] None w
             | (w, Some e) => mkBufio t (Some e) w
             end
      end
    end.
  (** bufio.Writer.WriteString: fill the buffer and flush it as long as more is left than it can take *)
  Fixpoint WriteString (fuel : nat) (b : bufio) (s : bytes) : bufio :=
    match fuel with
    | O => b
    | S fuel =>
      match bufErr b with
      | Some _ => b
      | None =>
        let available := (bufSize - List.length (buffered b))%nat in
        if (available <? List.length s)%nat
        then WriteString fuel (Flush (mkBufio (buffered b ++ firstn available s) None (under b))) (skipn available s)
        else mkBufio (buffered b ++ s) None (under b)
      end
    end.
  (** difflib.go:562-565 with the early returns of 584-622: the error of the first piece that fails, and the buffer then *)
  Fixpoint writePieces (b : bufio) (l : list bytes) : bufio * option error :=
    match l with
    | [] => (b, None)
    | s :: r =>
      let b := WriteString (2 + List.length s) b s in
      match bufErr b with
      | Some e => (b, Some e)
      | None => writePieces b r
      end
    end.
  (** difflib.go:559-626: the writer afterwards and the error returned; the deferred Flush of line 561 is the last thing, its error is
      dropped.  (What is written before a panic is not modelled.) *)
  Definition WriteUnifiedDiff (decimal : Z -> bytes) (sprintfOther : bytes -> bytes) (w : W) (d : Diff) : option (W * option error) :=
    let? l := unifiedPieces decimal sprintfOther d in
    let '(b, e) := writePieces (mkBufio [] None w) l in
    Some (under (Flush b), e).
End Writer.

(** * Lines: difflib.go:754-758 *)

(** strings.SplitAfter(s, "\n"), not code of the repository; never empty; difflib.go:755 *)
Fixpoint splitAfter (line : bytes) (s : bytes) : list bytes :=
  match s with
  | [] => [line]
  | c :: r => if c =? 10 then (line ++ [10]) :: splitAfter [] r else splitAfter (line ++ [c]) r
  end.
(** lines[len(lines)-1] += "\n" *)
Fixpoint addEnd (l : list bytes) : list bytes :=
  match l with
  | [] => []
  | [x] => [x ++ [10]]
  | x :: r => x :: addEnd r
  end.
(** difflib.go:754-758 *)
Definition SplitLines (s : bytes) : list bytes := addEnd (splitAfter [] s).
