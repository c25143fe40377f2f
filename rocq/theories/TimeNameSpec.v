(** What names of archives by time should be, said without the model of Format and Parse. *)
From Verif Require Import Base RotationModel TimeNameModel.

(** ** A calendar, counted year by year and month by month *)
Definition leap (y : Z) : Prop := (4 | y) /\ (~ (100 | y) \/ (400 | y)).
Definition month_days (leap_year : bool) (m : Z) : Z :=
  match m with 1 | 3 | 5 | 7 | 8 | 10 | 12 => 31 | 4 | 6 | 9 | 11 => 30 | 2 => if leap_year then 29 else 28 | _ => 0 end.
(** The next day *)
Inductive next_day : Z * Z * Z -> Z * Z * Z -> Prop :=
| nd_day y m d b : (b = true <-> leap y) -> d < month_days b m -> next_day (y, m, d) (y, m, d + 1)
| nd_month y m d b : (b = true <-> leap y) -> d = month_days b m -> m < 12 -> next_day (y, m, d) (y, m + 1, 1)
| nd_year y : next_day (y, 12, 31) (y + 1, 1, 1).

(** ** The parts of a layout *)
Definition has (s : std) (cs : list (bytes * std)) : bool :=
  existsb (fun c => match snd c, s with SYear, SYear | SMonth, SMonth | SDay, SDay | SHour, SHour | SMinute, SMinute | SSecond, SSecond => true | _, _ => false end) cs.
Definition known (cs : list (bytes * std)) : Prop := forall p s, In (p, s) cs -> match s with SFrac n => (1 <= n <= 9)%nat | SOther => False | _ => True end.
(** The digits behind the dot: of the last such element *)
Fixpoint fraction (cs : list (bytes * std)) : nat :=
  match cs with [] => O | (_, s) :: cs => match fraction cs with O => match s with SFrac n => n | _ => O end | n => n end end.
(** What a name tells of a time *)
Definition told (cs : list (bytes * std)) (f : fields) : fields :=
  let part s x default := if has s cs then x else default in
  let unit := 10 ^ (9 - Z.of_nat (fraction cs)) in
  mkFields (part SYear (fyear f) 0) (part SMonth (fmonth f) 1) (part SDay (fday f) 1) (part SHour (fhour f) 0) (part SMinute (fmin f) 0) (part SSecond (fsec f) 0)
    (match fraction cs with O => 0 | _ => fnsec f / unit * unit end).
(** Nothing is left out before a finer part *)
Definition chronological (cs : list (bytes * std)) : Prop :=
  has SYear cs = true /\ (has SDay cs = true -> has SMonth cs = true) /\ (has SHour cs = true -> has SDay cs = true) /\
  (has SMinute cs = true -> has SHour cs = true) /\ (has SSecond cs = true -> has SMinute cs = true) /\ (fraction cs <> O -> has SSecond cs = true).
(** Whether behind the seconds there is a dot and a digit that are not a fraction *)
Definition dot_digit (text : bytes) (more : bool) : bool :=
  match text with [46] => more | 46 :: c :: _ => (48 <=? c) && (c <=? 57) | _ => false end.
Fixpoint misread (cs : list (bytes * std)) (e : bytes) : bool :=
  match cs with
  | [] => false
  | (_, s) :: cs' =>
    match s, cs' with
    | SSecond, [] => dot_digit e false
    | SSecond, (_, SFrac _) :: _ => false
    | SSecond, (p, _) :: _ => dot_digit p true
    | _, _ => false
    end || misread cs' e
  end.

(** ** Which names are read, and how *)
Definition digit (c : Z) : Prop := 48 <= c <= 57.
Fixpoint number (n : Z) (l : bytes) : Z := match l with [] => n | c :: l => number (10 * n + (c - 48)) l end.
Definition not_digit_first (l : bytes) : Prop := match l with c :: _ => ~ digit c | [] => True end.
(** Two digits *)
Definition two (x : Z) (l : bytes) : Prop := exists a b, digit a /\ digit b /\ l = [a; b] /\ x = 10 * (a - 48) + (b - 48).
Inductive reads (e : bytes) : list (bytes * std) -> fields -> bytes -> fields -> Prop :=
| rd_end f : reads e [] f e f
| rd_year p cs y m d h i s ns l rest f : List.length l = 4%nat -> Forall digit l -> reads e cs (mkFields (number 0 l) m d h i s ns) rest f ->
    reads e ((p, SYear) :: cs) (mkFields y m d h i s ns) (p ++ l ++ rest) f
| rd_month p cs y m d h i s ns x l rest f : two x l -> 1 <= x <= 12 -> reads e cs (mkFields y x d h i s ns) rest f ->
    reads e ((p, SMonth) :: cs) (mkFields y m d h i s ns) (p ++ l ++ rest) f
| rd_day p cs y m d h i s ns x l rest f : two x l -> reads e cs (mkFields y m x h i s ns) rest f ->
    reads e ((p, SDay) :: cs) (mkFields y m d h i s ns) (p ++ l ++ rest) f
| rd_hour p cs y m d h i s ns x l rest f : two x l -> x <= 23 -> reads e cs (mkFields y m d x i s ns) rest f ->
    reads e ((p, SHour) :: cs) (mkFields y m d h i s ns) (p ++ l ++ rest) f
| rd_short_hour p cs y m d h i s ns c rest f : digit c -> not_digit_first rest -> reads e cs (mkFields y m d (c - 48) i s ns) rest f ->
    reads e ((p, SHour) :: cs) (mkFields y m d h i s ns) (p ++ c :: rest) f
| rd_minute p cs y m d h i s ns x l rest f : two x l -> x <= 59 -> reads e cs (mkFields y m d h x s ns) rest f ->
    reads e ((p, SMinute) :: cs) (mkFields y m d h i s ns) (p ++ l ++ rest) f
| rd_second p cs y m d h i s ns x l rest f : two x l -> x <= 59 ->
    (match rest with 46 :: r => match cs with (_, SFrac _) :: _ => True | _ => not_digit_first r end | _ => True end) ->
    reads e cs (mkFields y m d h i x ns) rest f ->
    reads e ((p, SSecond) :: cs) (mkFields y m d h i s ns) (p ++ l ++ rest) f
| rd_second_more p cs y m d h i s ns x l ds rest f : two x l -> x <= 59 ->
    (match cs with (_, SFrac _) :: _ => False | _ => True end) ->
    ds <> [] -> Forall digit ds -> not_digit_first rest -> number 0 ds < 1000000000 ->
    reads e cs (mkFields y m d h i x (number 0 ds * 10 ^ Z.max 0 (9 - lenZ ds))) rest f ->
    reads e ((p, SSecond) :: cs) (mkFields y m d h i s ns) (p ++ l ++ 46 :: ds ++ rest) f
| rd_frac p n cs y m d h i s ns ds rest f : List.length ds = n -> n <> O -> Forall digit ds -> number 0 ds < 1000000000 ->
    reads e cs (mkFields y m d h i s (number 0 ds * 10 ^ Z.max 0 (9 - lenZ ds))) rest f ->
    reads e ((p, SFrac n) :: cs) (mkFields y m d h i s ns) (p ++ 46 :: ds ++ rest) f.

(** ** What Format writes for one element *)
Definition spelled (f : fields) (s : std) (l : bytes) : Prop :=
  match s with
  | SYear => List.length l = 4%nat /\ Forall digit l /\ number 0 l = fyear f
  | SMonth => two (fmonth f) l
  | SDay => two (fday f) l
  | SHour => two (fhour f) l
  | SMinute => two (fmin f) l
  | SSecond => two (fsec f) l
  | SFrac n => exists ds, l = 46 :: ds /\ List.length ds = n /\ Forall digit ds /\ number 0 ds = fnsec f / 10 ^ (9 - Z.of_nat n)
  | SOther => False
  end.
(** The elements in a layout *)
Definition element (s : std) (l : bytes) : Prop :=
  match s with
  | SYear => l = bs "2006" | SMonth => l = bs "01" | SDay => l = bs "02" | SHour => l = bs "15" | SMinute => l = bs "04" | SSecond => l = bs "05"
  | SFrac n => l = 46 :: repeat 48 n
  | SOther => False
  end.
