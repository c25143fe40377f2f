(** Specification of differences between two lists of lines, independent of how difflib.go finds them. *)
From Verif Require Import Base DiffModel.

(** The lines i, ..., j - 1 of l *)
Definition part (l : list bytes) (i j : Z) : list bytes := firstn (Z.to_nat (j - i)) (skipn (Z.to_nat i) l).

(** * Matching blocks *)

(** k equal lines from line i of a and line j of b, inside a[alo:ahi] and b[blo:bhi] *)
Definition common_run (a b : list bytes) (alo ahi blo bhi i j k : Z) : Prop :=
  alo <= i /\ i + k <= ahi /\ blo <= j /\ j + k <= bhi /\ 0 <= k /\ part a i (i + k) = part b j (j + k).

(** What the comment of GetMatchingBlocks (difflib.go:293-304) promises *)
Definition valid_blocks (a b : list bytes) (blocks : list Match) : Prop :=
  exists found,
    blocks = found ++ [mkMatch (lenZ a) (lenZ b) 0] /\
    Forall (fun m => 0 < mSize m /\ common_run a b 0 (lenZ a) 0 (lenZ b) (mA m) (mB m) (mSize m)) found /\
    (forall l m m' r, found = l ++ m :: m' :: r ->
       mA m + mSize m <= mA m' /\ mB m + mSize m <= mB m' /\
       ~ (mA m + mSize m = mA m' /\ mB m + mSize m = mB m')).

(** A line counts for the search: it is in b, not junk, and not popular (more than 1 % of a b of at least 200 lines, if that is
    asked for) *)
Definition occurrences (s : bytes) (b : list bytes) : Z := lenZ (filter (fun x => streq x s) b).
Definition interesting (isJunk : option (bytes -> bool)) (autoJunk : bool) (b : list bytes) (s : bytes) : Prop :=
  match isJunk with None => True | Some f => f s = false end /\
  (autoJunk = true -> 200 <= lenZ b -> occurrences s b <= lenZ b / 100 + 1).

(** Before or at, first in a, then in b *)
Definition earlier (i j i' j' : Z) : Prop := i < i' \/ (i = i' /\ j <= j').

(** ** The search: Ratcliff and Obershelp's method, with junk *)
Definition junk_line (isJunk : option (bytes -> bool)) (s : bytes) : Prop := match isJunk with None => False | Some f => f s = true end.
Section Search.
  Variable a b : list bytes.
  (** The lines that count, and the junk *)
  Variable counts junk : bytes -> Prop.

  (** Of all runs of lines that count, one of the longest, of these the first in a, of these the first in b *)
  Definition core (alo ahi blo bhi : Z) (m : Match) : Prop :=
    common_run a b alo ahi blo bhi (mA m) (mB m) (mSize m) /\ Forall counts (part a (mA m) (mA m + mSize m)) /\
    (forall i j k, common_run a b alo ahi blo bhi i j k -> Forall counts (part a i (i + k)) ->
       k < mSize m \/ (k = mSize m /\ earlier (mA m) (mB m) i j)).
  (** m' is m, made as long as possible with lines of which P holds *)
  Definition widest (P : bytes -> Prop) (alo ahi blo bhi : Z) (m m' : Match) : Prop :=
    mA m' <= mA m /\ mA m - mA m' = mB m - mB m' /\ mA m + mSize m <= mA m' + mSize m' /\
    common_run a b alo ahi blo bhi (mA m') (mB m') (mSize m') /\
    Forall P (part a (mA m') (mA m)) /\ Forall P (part a (mA m + mSize m) (mA m' + mSize m')) /\
    (alo < mA m' -> blo < mB m' ->
       part a (mA m' - 1) (mA m') = part b (mB m' - 1) (mB m') -> ~ Forall P (part a (mA m' - 1) (mA m'))) /\
    (mA m' + mSize m' < ahi -> mB m' + mSize m' < bhi ->
       part a (mA m' + mSize m') (mA m' + mSize m' + 1) = part b (mB m' + mSize m') (mB m' + mSize m' + 1) ->
       ~ Forall P (part a (mA m' + mSize m') (mA m' + mSize m' + 1))).
  (** difflib.go:197-220 *)
  Definition best (alo ahi blo bhi : Z) (m : Match) : Prop :=
    exists m0 m1, core alo ahi blo bhi m0 /\ widest (fun s => ~ junk s) alo ahi blo bhi m0 m1 /\ widest junk alo ahi blo bhi m1 m.
  (** The best match, and the same before it and after it *)
  Inductive matched : Z -> Z -> Z -> Z -> list Match -> Prop :=
  | matched_none : forall alo ahi blo bhi m, best alo ahi blo bhi m -> mSize m = 0 -> matched alo ahi blo bhi []
  | matched_some : forall alo ahi blo bhi m l r, best alo ahi blo bhi m -> 0 < mSize m ->
      matched alo (mA m) blo (mB m) l -> matched (mA m + mSize m) ahi (mB m + mSize m) bhi r ->
      matched alo ahi blo bhi (l ++ m :: r).
End Search.
(** The pairs of lines that a list of matches is about *)
Definition pairs (l : list Match) : list (Z * Z) :=
  flat_map (fun m => map (fun d => (mA m + Z.of_nat d, mB m + Z.of_nat d)) (seq 0 (Z.to_nat (mSize m)))) l.

(** * Op codes *)

(** What the tag says is so: difflib.go:365-372 *)
Definition truthful (a b : list bytes) (c : OpCode) : Prop :=
  (Tag c = tag_e /\ I1 c < I2 c /\ J1 c < J2 c /\ part a (I1 c) (I2 c) = part b (J1 c) (J2 c)) \/
  (Tag c = tag_r /\ I1 c < I2 c /\ J1 c < J2 c) \/
  (Tag c = tag_d /\ I1 c < I2 c /\ J1 c = J2 c) \/
  (Tag c = tag_i /\ I1 c = I2 c /\ J1 c < J2 c).

(** The codes follow each other from (i, j) to (i', j') without gap or overlap *)
Fixpoint tiles (i j : Z) (codes : list OpCode) (i' j' : Z) : Prop :=
  match codes with
  | [] => i = i' /\ j = j'
  | c :: r => I1 c = i /\ J1 c = j /\ tiles (I2 c) (J2 c) r i' j'
  end.

(** Turning a into b: keep the lines of a where they are equal, take those of b elsewhere *)
Definition apply (a b : list bytes) (codes : list OpCode) : list bytes :=
  List.concat (map (fun c => if Tag c =? tag_e then part a (I1 c) (I2 c) else part b (J1 c) (J2 c)) codes).

(** Changes and equal parts alternate *)
Definition alternate (codes : list OpCode) : Prop :=
  forall l c c' r, codes = l ++ c :: c' :: r -> (Tag c = tag_e <-> Tag c' <> tag_e).

Definition good_codes (a b : list bytes) (codes : list OpCode) : Prop :=
  Forall (truthful a b) codes /\ tiles 0 0 codes (lenZ a) (lenZ b) /\ apply a b codes = b /\ alternate codes.

(** * Groups *)

Definition changes (codes : list OpCode) : list OpCode := filter (fun c => negb (Tag c =? tag_e)) codes.

(** A group: as [truthful], but an equal part may be empty (with no context lines) *)
Definition truthful0 (a b : list bytes) (c : OpCode) : Prop :=
  truthful a b c \/ (Tag c = tag_e /\ I1 c = I2 c /\ J1 c = J2 c).
(** The context lines a group begins with *)
Definition lead (g : list OpCode) : Z :=
  match g with c :: _ => if Tag c =? tag_e then I2 c - I1 c else 0 | [] => 0 end.
Definition trail (g : list OpCode) : Z := lead (rev g).

(** [grouped n a b i j t gs]: the groups gs describe all changes from (i, j) on; t is the number of context lines at the end of the
    group before, n if there is none.  What lies between groups is equal, and there the context is full. *)
Inductive grouped (n : Z) (a b : list bytes) : Z -> Z -> Z -> list (list OpCode) -> Prop :=
| grouped_end : forall i j t,
    i <= lenZ a -> lenZ a - i = lenZ b - j -> part a i (lenZ a) = part b j (lenZ b) -> (i < lenZ a -> t = n) ->
    grouped n a b i j t []
| grouped_next : forall i j t si sj ei ej g gs,
    i <= si -> si - i = sj - j -> part a i si = part b j sj ->
    (i < si -> t = n /\ lead g = n) ->
    tiles si sj g ei ej -> Forall (truthful0 a b) g -> alternate g -> changes g <> [] ->
    lead g <= n -> trail g <= n -> Forall (fun c => Tag c = tag_e -> I2 c - I1 c <= 2 * n) g ->
    grouped n a b ei ej (trail g) gs ->
    grouped n a b i j t (g :: gs).

(** * Unified diffs *)

Inductive mark := Same | Del | Ins.
Definition mark_eqb (x y : mark) : bool := match x, y with Same, Same | Del, Del | Ins, Ins => true | _, _ => false end.

(** A hunk: the first lines it is about (from 0) and its lines *)
Record hunk := mkHunk { oldStart : Z; newStart : Z; body : list (mark * bytes) }.
Definition oldLines (h : hunk) : list bytes := map snd (filter (fun l => negb (mark_eqb (fst l) Ins)) (body h)).
Definition newLines (h : hunk) : list bytes := map snd (filter (fun l => negb (mark_eqb (fst l) Del)) (body h)).

(** The hunks turn a, from line i on, into b from line j on *)
Inductive patches (a b : list bytes) : Z -> Z -> list hunk -> Prop :=
| patches_end : forall i j,
    i <= lenZ a -> j <= lenZ b -> part a i (lenZ a) = part b j (lenZ b) -> patches a b i j []
| patches_next : forall i j h hs,
    i <= oldStart h -> j <= newStart h -> part a i (oldStart h) = part b j (newStart h) ->
    part a (oldStart h) (oldStart h + lenZ (oldLines h)) = oldLines h ->
    part b (newStart h) (newStart h + lenZ (newLines h)) = newLines h ->
    patches a b (oldStart h + lenZ (oldLines h)) (newStart h + lenZ (newLines h)) hs ->
    patches a b i j (h :: hs).

(** How many unchanged lines a list of lines begins with *)
Fixpoint unchanged (l : list (mark * bytes)) : Z :=
  match l with (Same, _) :: r => 1 + unchanged r | _ => 0 end.

Section Render.
  Variable decimal : Z -> bytes.
  (** How a line is printed: as it is, if all is well *)
  Variable show : bytes -> bytes.
  (** The unified format: http://www.unix.org/single_unix_specification/ *)
  Definition range (start length : Z) : bytes :=
    if length =? 1 then decimal (start + 1)
    else if length =? 0 then decimal start ++ bs "," ++ decimal 0
    else decimal (start + 1) ++ bs "," ++ decimal length.
  Definition mark_text (m : mark) : bytes := match m with Same => bs " " | Del => bs "-" | Ins => bs "+" end.
  Definition hunk_text (eol : bytes) (h : hunk) : bytes :=
    bs "@@ -" ++ range (oldStart h) (lenZ (oldLines h)) ++ bs " +" ++ range (newStart h) (lenZ (newLines h)) ++ bs " @@" ++ eol ++
    List.concat (map (fun l => mark_text (fst l) ++ show (snd l)) (body h)).
  Definition name_text (file date : bytes) : bytes := file ++ (if streq date [] then [] else [9] ++ date).
  Definition unified_text (d : Diff) (hs : list hunk) : bytes :=
    let eol := if streq (Eol d) [] then [10] else Eol d in
    match hs with
    | [] => []
    | _ =>
      bs "--- " ++ name_text (FromFile d) (FromDate d) ++ eol ++
      bs "+++ " ++ name_text (ToFile d) (ToDate d) ++ eol ++
      List.concat (map (hunk_text eol) hs)
    end.
End Render.

(** A line that a format string leaves alone *)
Definition no_percent (s : bytes) : Prop := ~ In 37 s.
(** A line in which every '%' is followed by flags and then '%', a letter or the end: those that [Sprintf] is concrete about *)
Definition flags (l : bytes) : Prop := forall c, In c l -> In c (bs " #+-0").
Definition letter (c : Z) : Prop := 65 <= c <= 90 \/ 97 <= c <= 122.
Inductive plain : bytes -> Prop :=
| plain_nil : plain []
| plain_char : forall c r, c <> 37 -> plain r -> plain (c :: r)
| plain_end : forall fl, flags fl -> plain (37 :: fl)
| plain_verb : forall fl c r, flags fl -> (c = 37 \/ letter c) -> plain r -> plain (37 :: fl ++ c :: r).

(** The context that a diff is asked for *)
Definition asked (context : Z) : Z := if context <? 0 then 3 else context.

(** The hunks of a diff with n lines of context: each shows a change, begins and ends with at most n unchanged lines *)
Definition hunk_ok (n : Z) (h : hunk) : Prop :=
  (exists l, In l (body h) /\ fst l <> Same) /\ unchanged (body h) <= n /\ unchanged (rev (body h)) <= n.

(** * A history of calls on one matcher *)
Inductive call :=
| CSetSeq1 (a : list bytes) | CSetSeq2 (b : list bytes) | CSetSeqs (a b : list bytes)
| CBlocks | CCodes | CGrouped (n : Z).
Definition perform (m : matcher) (c : call) : option matcher :=
  match c with
  | CSetSeq1 a => Some (SetSeq1 m a)
  | CSetSeq2 b => Some (SetSeq2 m b)
  | CSetSeqs a b => Some (SetSeqs m a b)
  | CBlocks => option_map fst (GetMatchingBlocks m)
  | CCodes => option_map fst (GetOpCodes m)
  | CGrouped n => option_map fst (GetGroupedOpCodes m n)
  end.
Fixpoint performs (m : matcher) (l : list call) : option matcher :=
  match l with [] => Some m | c :: r => let? m := perform m c in performs m r end.
Definition isGrouped (c : call) : bool := match c with CGrouped _ => true | _ => false end.
(** The sequences that were set last *)
Definition setBy (s : list bytes * list bytes) (c : call) : list bytes * list bytes :=
  match c with
  | CSetSeq1 a => (a, snd s)
  | CSetSeq2 b => (fst s, b)
  | CSetSeqs a b => (a, b)
  | _ => s
  end.
Definition current (a b : list bytes) (l : list call) : list bytes * list bytes := fold_left setBy l (a, b).

(** * Context diffs *)
Section RenderContext.
  Variable decimal : Z -> bytes.
  Variable show : bytes -> bytes.
  Variable a b : list bytes.
  Definition sign (c : OpCode) : bytes :=
    if Tag c =? tag_e then bs "  " else if Tag c =? tag_r then bs "! " else if Tag c =? tag_d then bs "- " else bs "+ ".
  (** All the lines of a group on either side, with their signs *)
  Definition oldSide (g : list OpCode) : list (bytes * bytes) := List.concat (map (fun c => map (pair (sign c)) (part a (I1 c) (I2 c))) g).
  Definition newSide (g : list OpCode) : list (bytes * bytes) := List.concat (map (fun c => map (pair (sign c)) (part b (J1 c) (J2 c))) g).
  (** A side without changes is left out *)
  Definition side_text (l : list (bytes * bytes)) : bytes :=
    if forallb (fun x => streq (fst x) (bs "  ")) l then [] else List.concat (map (fun x => fst x ++ show (snd x)) l).
  Definition range_context (start length : Z) : bytes :=
    if length =? 0 then decimal start
    else if length =? 1 then decimal (start + 1)
    else decimal (start + 1) ++ bs "," ++ decimal (start + length).
  Definition section_text (eol : bytes) (g : list OpCode) : bytes :=
    match g with
    | [] => []
    | c :: _ =>
      bs "***************" ++ show eol ++
      bs "*** " ++ range_context (I1 c) (lenZ (oldSide g)) ++ bs " ****" ++ eol ++ side_text (oldSide g) ++
      bs "--- " ++ range_context (J1 c) (lenZ (newSide g)) ++ bs " ----" ++ eol ++ side_text (newSide g)
    end.
  Definition context_text (d : Diff) (gs : list (list OpCode)) : bytes :=
    let eol := if streq (Eol d) [] then [10] else Eol d in
    match gs with
    | [] => []
    | _ =>
      bs "*** " ++ name_text (FromFile d) (FromDate d) ++ eol ++
      bs "--- " ++ name_text (ToFile d) (ToDate d) ++ eol ++
      List.concat (map (section_text eol) gs)
    end.
End RenderContext.

(** * Writers *)
Section Sent.
  Variable W error : Type.
  Variable Write : W -> bytes -> W * option error.
  (** [sent w t w']: some writes, all accepted, give the writer the bytes t *)
  Inductive sent : W -> bytes -> W -> Prop :=
  | sent_nil : forall w, sent w [] w
  | sent_more : forall w t w1 r w2, Write w t = (w1, None) -> sent w1 r w2 -> sent w (t ++ r) w2.
End Sent.

(** * Lines *)
(** Every line has its end, and no other *)
Definition ended (l : bytes) : Prop := exists t, l = t ++ [10] /\ ~ In 10 t.
