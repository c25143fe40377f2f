(** Model of NameByTime (countlog/output/rotation/name_by_time.go): the names it gives to archives, and which names it takes for archives.
    Package time (that of Go 1.14, go.mod:3) is modelled as far as Format (name_by_time.go:18) and Parse (name_by_time.go:32) go for layouts with the elements 2006, 01, 02, 15, 04, 05 and
    .000 (any number of zeros); the other elements are recognised, but what they do is not modelled ([SOther]).  Layouts with blanks are not modelled either.
    A time is told in nanoseconds since the beginning of the year 1, at the place of the clock for Format, in UTC for Parse.  Citations without a directory are to countlog/output/rotation. *)
From Verif Require Import Base RotationModel.

(** * Layouts *)

(** The elements of a layout; SFrac n: a dot and n zeros (name_by_time.go:18, 32) *)
Inductive std := SYear | SMonth | SDay | SHour | SMinute | SSecond | SFrac (n : nat) | SOther.
(** strings.HasPrefix: name_by_time.go:18 *)
Fixpoint starts (p l : bytes) : bool := match p, l with [], _ => true | a :: p, b :: l => (a =? b) && starts p l | _, [] => false end.
(** '0' <= c && c <= '9': name_by_time.go:32 *)
Definition isDigit (c : Z) : bool := (48 <=? c) && (c <=? 57).
(** isDigit(s, 0): name_by_time.go:32 *)
Definition digitFirst (l : bytes) : bool := match l with c :: _ => isDigit c | [] => false end.
(** startsWithLowerCase: name_by_time.go:32 *)
Definition lowerFirst (l : bytes) : bool := match l with c :: _ => (97 <=? c) && (c <=? 122) | [] => false end.
(** How many c are at the beginning: name_by_time.go:32 *)
Fixpoint runOf (c : Z) (l : bytes) : nat := match l with d :: l => if d =? c then S (runOf c l) else O | [] => O end.

(** nextStdChunk at one place: the element there and what follows; None: no element begins there (name_by_time.go:18, 32) *)
Definition chunkAt (l : bytes) : option (std * bytes) :=
  if starts (bs "January") l then Some (SOther, skipn 7 l)
  else if starts (bs "Jan") l && negb (lowerFirst (skipn 3 l)) then Some (SOther, skipn 3 l)
  else if starts (bs "Monday") l then Some (SOther, skipn 6 l)
  else if starts (bs "Mon") l && negb (lowerFirst (skipn 3 l)) then Some (SOther, skipn 3 l)
  else if starts (bs "MST") l then Some (SOther, skipn 3 l)
  else if starts (bs "01") l then Some (SMonth, skipn 2 l)
  else if starts (bs "02") l then Some (SDay, skipn 2 l)
  else if starts (bs "03") l then Some (SOther, skipn 2 l)
  else if starts (bs "04") l then Some (SMinute, skipn 2 l)
  else if starts (bs "05") l then Some (SSecond, skipn 2 l)
  else if starts (bs "06") l then Some (SOther, skipn 2 l)
  else if starts (bs "002") l then Some (SOther, skipn 3 l)
  else if starts (bs "15") l then Some (SHour, skipn 2 l)
  else if starts (bs "1") l then Some (SOther, skipn 1 l)
  else if starts (bs "2006") l then Some (SYear, skipn 4 l)
  else if starts (bs "2") l then Some (SOther, skipn 1 l)
  else if starts (bs "_2006") l then None
  else if starts (bs "_2") l then Some (SOther, skipn 2 l)
  else if starts (bs "__2") l then Some (SOther, skipn 3 l)
  else if starts (bs "3") l || starts (bs "4") l || starts (bs "5") l then Some (SOther, skipn 1 l)
  else if starts (bs "PM") l || starts (bs "pm") l then Some (SOther, skipn 2 l)
  else if starts (bs "-070000") l || starts (bs "Z070000") l then Some (SOther, skipn 7 l)
  else if starts (bs "-07:00:00") l || starts (bs "Z07:00:00") l then Some (SOther, skipn 9 l)
  else if starts (bs "-0700") l || starts (bs "Z0700") l then Some (SOther, skipn 5 l)
  else if starts (bs "-07:00") l || starts (bs "Z07:00") l then Some (SOther, skipn 6 l)
  else if starts (bs "-07") l then Some (SOther, skipn 3 l)
  else if starts (bs ".0") l && negb (digitFirst (skipn (S (runOf 48 (skipn 1 l))) l)) then Some (SFrac (runOf 48 (skipn 1 l)), skipn (S (runOf 48 (skipn 1 l))) l)
  else if starts (bs ".9") l && negb (digitFirst (skipn (S (runOf 57 (skipn 1 l))) l)) then Some (SOther, skipn (S (runOf 57 (skipn 1 l))) l)
  else None.
(** nextStdChunk: what is before the first element, the element and what is after (name_by_time.go:18, 32) *)
Fixpoint nextStdChunk (l : bytes) : bytes * option (std * bytes) :=
  match chunkAt l with
  | Some x => ([], Some x)
  | None => match l with [] => ([], None) | c :: l => let '(p, x) := nextStdChunk l in (c :: p, x) end
  end.
(** The layout taken apart, as the loops of Format and Parse do (name_by_time.go:18, 32): the elements, each with what is before it, and what is behind the last *)
Fixpoint chunks (fuel : nat) (l : bytes) : list (bytes * std) * bytes :=
  match fuel with
  | O => ([], [])
  | S fuel => match nextStdChunk l with (p, None) => ([], p) | (p, Some (s, l)) => let '(cs, e) := chunks fuel l in ((p, s) :: cs, e) end
  end.
(** As chunks; every element has at least one byte (name_by_time.go:18, 32) *)
Definition layoutOf (pattern : bytes) : list (bytes * std) * bytes := chunks (S (List.length pattern)) pattern.

(** * Dates *)

(** isLeap: name_by_time.go:32 *)
Definition isLeap (y : Z) : bool := (y mod 4 =? 0) && (negb (y mod 100 =? 0) || (y mod 400 =? 0)).
(** daysBefore, the days before each month in a year that is not a leap year: name_by_time.go:18, 32 *)
Definition daysBefore (m : Z) : Z := nth (Z.to_nat m) [0; 31; 59; 90; 120; 151; 181; 212; 243; 273; 304; 334; 365] 0.
(** daysIn: name_by_time.go:32 *)
Definition daysIn (m y : Z) : Z := if (m =? 2) && isLeap y then 29 else daysBefore m - daysBefore (m - 1).
(** The date of a day, days since 1 January of the year 1: absDate (name_by_time.go:18) *)
Definition dateOf (d : Z) : Z * Z * Z :=
  let n400 := d / 146097 in let d := d - 146097 * n400 in
  let n100 := d / 36524 in let n100 := n100 - n100 / 4 in let d := d - 36524 * n100 in
  let n4 := d / 1461 in let d := d - 1461 * n4 in
  let n1 := d / 365 in let n1 := n1 - n1 / 4 in let d := d - 365 * n1 in
  let year := 400 * n400 + 100 * n100 + 4 * n4 + n1 + 1 in
  let rest day :=
    let month := day / 31 in
    if daysBefore (month + 1) <=? day then (year, month + 2, day - daysBefore (month + 1) + 1) else (year, month + 1, day - daysBefore month + 1) in
  if isLeap year then if 59 <? d then rest (d - 1) else if d =? 59 then (year, 2, 29) else rest d else rest d.
(** The day of a date: Date (name_by_time.go:32) *)
Definition dayOf (year month day : Z) : Z :=
  let y := year - 1 in
  let n400 := y / 400 in let y := y - 400 * n400 in
  let n100 := y / 100 in let y := y - 100 * n100 in
  let n4 := y / 4 in let y := y - 4 * n4 in
  146097 * n400 + 36524 * n100 + 1461 * n4 + 365 * y + daysBefore (month - 1) + (if isLeap year && (3 <=? month) then 1 else 0) + (day - 1).
(** The parts of a time (name_by_time.go:18, 32) *)
Record fields := mkFields { fyear : Z; fmonth : Z; fday : Z; fhour : Z; fmin : Z; fsec : Z; fnsec : Z }.
(** Nanoseconds of a day and of a second: name_by_time.go:18, 32 *)
Definition nsDay : Z := 86400 * second.
(** t.Date(), t.Clock() and t.Nanosecond(): name_by_time.go:18 *)
Definition fieldsOf (t : Z) : fields :=
  let '(y, m, d) := dateOf (t / nsDay) in let s := t mod nsDay / second in
  mkFields y m d (s / 3600) (s mod 3600 / 60) (s mod 60) (t mod second).
(** Date(...): name_by_time.go:32 *)
Definition timeOf (f : fields) : Z := dayOf (fyear f) (fmonth f) (fday f) * nsDay + (fhour f * 3600 + fmin f * 60 + fsec f) * second + fnsec f.

(** * Format *)

(** The last n decimal digits of x: name_by_time.go:18 *)
Fixpoint lastDigits (n : nat) (x : Z) : bytes := match n with O => [] | S n => lastDigits n (x / 10) ++ [48 + x mod 10] end.
(** How many digits a number has at least: name_by_time.go:18 *)
Fixpoint digitsOf (fuel : nat) (x : Z) : nat := match fuel with O => O | S fuel => if x <? 10 then 1%nat else S (digitsOf fuel (x / 10)) end.
(** appendInt: name_by_time.go:18 *)
Definition appendInt (x : Z) (width : nat) : bytes :=
  (if x <? 0 then [45] else []) ++ lastDigits (Nat.max width (digitsOf 20 (Z.abs x))) (Z.abs x).
(** One element of AppendFormat (name_by_time.go:18).  formatNano of n digits: the first n of nine.  SOther is not modelled: no text *)
Definition formatStd (f : fields) (s : std) : bytes :=
  match s with
  | SYear => appendInt (fyear f) 4
  | SMonth => appendInt (fmonth f) 2
  | SDay => appendInt (fday f) 2
  | SHour => appendInt (fhour f) 2
  | SMinute => appendInt (fmin f) 2
  | SSecond => appendInt (fsec f) 2
  | SFrac n => 46 :: firstn n (lastDigits 9 (fnsec f))
  | SOther => []
  end.
(** AppendFormat: name_by_time.go:18 *)
Definition formatChunks (f : fields) (cs : list (bytes * std)) (e : bytes) : bytes := flat_map (fun c => fst c ++ formatStd f (snd c)) cs ++ e.
(** now.Format(pattern): name_by_time.go:18 *)
Definition Format (pattern : bytes) (t : Z) : bytes := let '(cs, e) := layoutOf pattern in formatChunks (fieldsOf t) cs e.

(** * Parse *)

(** skip without blanks: name_by_time.go:32 *)
Fixpoint skipPrefix (value prefix : bytes) : option bytes :=
  match prefix, value with
  | [], _ => Some value
  | p :: prefix, v :: value => if v =? p then skipPrefix value prefix else None
  | _ :: _, [] => None
  end.
(** getnum: name_by_time.go:32 *)
Definition getnum (value : bytes) (fixed : bool) : option (Z * bytes) :=
  match value with
  | a :: r => if negb (isDigit a) then None else
    match r with
    | b :: r' => if isDigit b then Some ((a - 48) * 10 + (b - 48), r') else if fixed then None else Some (a - 48, r)
    | [] => if fixed then None else Some (a - 48, r)
    end
  | [] => None
  end.
(** The value of digits; atoi without a sign and without the check for overflow, which the callers make superfluous: name_by_time.go:32 *)
Definition valueOf (l : bytes) : Z := fold_left (fun x c => x * 10 + (c - 48)) l 0.
(** The digits at the beginning: name_by_time.go:32 *)
Fixpoint leadingDigits (l : bytes) : bytes := match l with c :: l => if isDigit c then c :: leadingDigits l else [] | [] => [] end.
(** parseNanoseconds of a dot and these digits; None: an error.  An overflow of atoi is an error too (name_by_time.go:32) *)
Definition nanoseconds (digits : bytes) : option Z :=
  if forallb isDigit digits && negb (match digits with [] => true | _ => false end) && (valueOf digits <? 10 ^ 9)
  then Some (valueOf digits * 10 ^ (Z.max 0 (9 - lenZ digits))) else None.
(** Whether the next element is a fraction of a second: name_by_time.go:32 *)
Definition nextIsFrac (cs : list (bytes * std)) : bool := match cs with (_, SFrac _) :: _ => true | _ => false end.

(** One element: the parts so far, the value that is left (name_by_time.go:32).  None: an error, or SOther, which is not modelled *)
Definition parseStd (s : std) (later : list (bytes * std)) (f : fields) (value : bytes) : option (fields * bytes) :=
  match s with
  | SYear =>
    if (List.length value <? 4)%nat || negb (forallb isDigit (firstn 4 value)) then None
    else Some (mkFields (valueOf (firstn 4 value)) (fmonth f) (fday f) (fhour f) (fmin f) (fsec f) (fnsec f), skipn 4 value)
  | SMonth => let? (x, r) := getnum value true in
    if (x <=? 0) || (12 <? x) then None else Some (mkFields (fyear f) x (fday f) (fhour f) (fmin f) (fsec f) (fnsec f), r)
  | SDay => let? (x, r) := getnum value true in Some (mkFields (fyear f) (fmonth f) x (fhour f) (fmin f) (fsec f) (fnsec f), r)
  | SHour => let? (x, r) := getnum value false in
    if 24 <=? x then None else Some (mkFields (fyear f) (fmonth f) (fday f) x (fmin f) (fsec f) (fnsec f), r)
  | SMinute => let? (x, r) := getnum value true in
    if 60 <=? x then None else Some (mkFields (fyear f) (fmonth f) (fday f) (fhour f) x (fsec f) (fnsec f), r)
  | SSecond => let? (x, r) := getnum value true in
    if 60 <=? x then None else
    let f := mkFields (fyear f) (fmonth f) (fday f) (fhour f) (fmin f) x (fnsec f) in
    match r with
    | 46 :: r' => if digitFirst r' && negb (nextIsFrac later)
                  then let? ns := nanoseconds (leadingDigits r') in
                    Some (mkFields (fyear f) (fmonth f) (fday f) (fhour f) (fmin f) (fsec f) ns, skipn (List.length (leadingDigits r')) r')
                  else Some (f, r)
    | _ => Some (f, r)
    end
  | SFrac n =>
    match value with
    | 46 :: r => if (List.length r <? n)%nat then None else
      let? ns := nanoseconds (firstn n r) in Some (mkFields (fyear f) (fmonth f) (fday f) (fhour f) (fmin f) (fsec f) ns, skipn n r)
    | _ => None
    end
  | SOther => None
  end.
(** The loop of Parse: name_by_time.go:32 *)
Fixpoint parseChunks (cs : list (bytes * std)) (e : bytes) (f : fields) (value : bytes) : option fields :=
  match cs with
  | [] => let? r := skipPrefix value e in match r with [] => Some f | _ => None end
  | (p, s) :: cs => let? value := skipPrefix value p in let? (f, value) := parseStd s cs f value in parseChunks cs e f value
  end.
(** time.Parse(pattern, name): name_by_time.go:32.  A month or a day that is not given is 1 *)
Definition Parse (pattern name : bytes) : option Z :=
  let '(cs, e) := layoutOf pattern in
  let? f := parseChunks cs e (mkFields 0 1 1 0 0 0 0) name in
  if (fday f <? 1) || (daysIn (fmonth f) (fyear f) <? fday f) then None else Some (timeOf f).

(** * NameByTime *)

Section NameByTime.
  (** path.Join(namer.Directory, name): name_by_time.go:18, 37 *)
  Variable join : bytes -> bytes.
  (** How far the clock at the place of the program is ahead of UTC at that time, in nanoseconds; clock.Now() is time.Now (clock/clock.go:5), which tells the time at that place (name_by_time.go:17) *)
  Variable zone : Z -> Z.
  (** name_by_time.go:16-19; [now]: the time in UTC *)
  Definition NextFile (pattern : bytes) (now : Z) : bytes := join (Format pattern (now + zone now)).
  (** name_by_time.go:66 *)
  Definition Less (a b : timedFile) : bool := ttime a <? ttime b.
  (** name_by_time.go:21-55 *)
  Definition ListTimed (pattern : bytes) (sort : list timedFile -> list timedFile) (statSize : bytes -> option Z) (names : option (list bytes)) : option (list Archive) :=
    ListFiles join (Parse pattern) sort statSize names.
End NameByTime.
