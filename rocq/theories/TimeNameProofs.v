(** Lemmas about the calendar and about reading and writing times. *)
From Verif Require Import Base RotationModel TimeNameModel TimeNameSpec.
Local Open Scope Z_scope.

(** * The calendar *)
Lemma isLeap_leap : forall y, isLeap y = true <-> leap y.
Proof.
  intro y. unfold isLeap, leap. rewrite andb_true_iff, orb_true_iff, negb_true_iff, !Z.eqb_eq, Z.eqb_neq.
  rewrite <- !Z.mod_divide by lia. tauto.
Qed.
Lemma isLeap_400 : forall y k, isLeap (y + 400 * k) = isLeap y.
Proof.
  intros y k. unfold isLeap.
  replace ((y + 400 * k) mod 4) with (y mod 4) by (rewrite <- (Z_mod_plus_full y (100 * k) 4); f_equal; lia).
  replace ((y + 400 * k) mod 100) with (y mod 100) by (rewrite <- (Z_mod_plus_full y (4 * k) 100); f_equal; lia).
  replace ((y + 400 * k) mod 400) with (y mod 400) by (rewrite <- (Z_mod_plus_full y k 400); f_equal; lia). reflexivity.
Qed.
Lemma dateOf_400 : forall r k, 0 <= r < 146097 -> dateOf (r + 146097 * k) = let '(y, m, d) := dateOf r in (y + 400 * k, m, d).
Proof.
  intros r k R. unfold dateOf.
  replace ((r + 146097 * k) / 146097) with k by (apply (Z.div_unique _ _ _ r); lia).
  replace (r / 146097) with 0 by (symmetry; apply Z.div_small; lia).
  replace (r + 146097 * k - 146097 * k) with r by lia. replace (r - 146097 * 0) with r by lia. cbv zeta.
  set (A := 100 * (r / 36524 - r / 36524 / 4)). set (d1 := r - 36524 * (r / 36524 - r / 36524 / 4)).
  set (B := 4 * (d1 / 1461)). set (d2 := d1 - 1461 * (d1 / 1461)). set (C := d2 / 365 - d2 / 365 / 4). set (d3 := d2 - 365 * C).
  replace (400 * k + A + B + C + 1) with (400 * 0 + A + B + C + 1 + 400 * k) by lia. rewrite isLeap_400.
  destruct (isLeap _); [destruct (59 <? d3); [|destruct (d3 =? 59); [reflexivity|]]|]; destruct (daysBefore _ <=? _); reflexivity.
Qed.
Lemma dayOf_400 : forall y m d k, dayOf (y + 400 * k) m d = dayOf y m d + 146097 * k.
Proof.
  intros y m d k. unfold dayOf. cbv zeta. rewrite isLeap_400.
  replace ((y + 400 * k - 1) / 400) with ((y - 1) / 400 + k) by (rewrite <- (Z_div_plus_full (y - 1) k 400) by lia; f_equal; lia).
  replace (y + 400 * k - 1 - 400 * ((y - 1) / 400 + k)) with (y - 1 - 400 * ((y - 1) / 400)) by lia. lia.
Qed.
(** The month and the day in a year *)
Definition monthDay (b : bool) (x : Z) : Z * Z :=
  let rest day := let month := day / 31 in if daysBefore (month + 1) <=? day then (month + 2, day - daysBefore (month + 1) + 1) else (month + 1, day - daysBefore month + 1) in
  if b then if 59 <? x then rest (x - 1) else if x =? 59 then (2, 29) else rest x else rest x.
Definition yearDays (b : bool) : Z := if b then 366 else 365.
Definition okYearDay (b : bool) (x : Z) : bool :=
  let '(m, d) := monthDay b x in let '(m', d') := monthDay b (x + 1) in
  (daysBefore (m - 1) + (if b && (3 <=? m) then 1 else 0) + (d - 1) =? x) && (1 <=? m) && (m <=? 12) && (1 <=? d) && (d <=? month_days b m) &&
  ((x + 1 <? yearDays b) && (m' =? m) && (d' =? d + 1) && (d <? month_days b m)
   || (x + 1 <? yearDays b) && (m' =? m + 1) && (d' =? 1) && (d =? month_days b m) && (m <? 12)
   || (x + 1 =? yearDays b) && (m =? 12) && (d =? 31)).
Lemma okYearDay_all : forall b x, 0 <= x < yearDays b -> okYearDay b x = true.
Proof.
  assert (T : forallb (fun b => forallb (fun x => negb (x <? yearDays b) || okYearDay b x) (map Z.of_nat (seq 0 366))) [true; false] = true) by (vm_compute; reflexivity).
  intros b x X. rewrite forallb_forall in T. specialize (T b ltac:(destruct b; cbn; auto)). rewrite forallb_forall in T.
  assert (L : x < 366) by (destruct b; cbn in X; lia).
  specialize (T x). rewrite (proj2 (Z.ltb_lt _ _) (proj2 X)) in T. apply T. apply in_map_iff. exists (Z.to_nat x). split; [lia|]. apply in_seq. lia.
Qed.
Lemma leap_parts : forall a b c, 0 <= a <= 3 -> 0 <= b <= 24 -> 0 <= c <= 3 ->
  isLeap (100 * a + 4 * b + c + 1) = (c =? 3) && (negb (b =? 24) || (a =? 3)).
Proof.
  assert (T : forallb (fun a => forallb (fun b => forallb (fun c => Bool.eqb (isLeap (100 * a + 4 * b + c + 1)) ((c =? 3) && (negb (b =? 24) || (a =? 3))))
    (map Z.of_nat (seq 0 4))) (map Z.of_nat (seq 0 25))) (map Z.of_nat (seq 0 4)) = true) by (vm_compute; reflexivity).
  intros a b c A B C. rewrite forallb_forall in T. specialize (T a). rewrite forallb_forall in T. specialize (fun I => T I b). rewrite forallb_forall in T. specialize (fun I J => T I J c).
  apply eqb_prop. apply T; apply in_map_iff; [exists (Z.to_nat a)|exists (Z.to_nat b)|exists (Z.to_nat c)]; (split; [lia|apply in_seq; lia]).
Qed.
Lemma dateOf_parts : forall a b c x, 0 <= a <= 3 -> 0 <= b <= 24 -> 0 <= c <= 3 -> let y := 100 * a + 4 * b + c + 1 in
  0 <= x < yearDays (isLeap y) -> dateOf (36524 * a + 1461 * b + 365 * c + x) = (y, fst (monthDay (isLeap y) x), snd (monthDay (isLeap y) x)).
Proof.
  intros a b c x A B C y X. pose proof (leap_parts a b c A B C) as L. fold y in L.
  assert (X' : x <= 364 \/ x = 365 /\ c = 3 /\ (b <= 23 \/ a = 3)).
  { unfold yearDays in X. destruct (isLeap y); [|lia]. symmetry in L. apply andb_prop in L as [L1 L2]. apply Z.eqb_eq in L1. apply orb_prop in L2 as [L2|L2].
    - apply negb_true_iff, Z.eqb_neq in L2. lia.
    - apply Z.eqb_eq in L2. lia. }
  assert (X0 : 0 <= x) by lia. clear L.
  set (D := 36524 * a + 1461 * b + 365 * c + x).
  assert (R : 0 <= D < 146097) by (unfold D; lia).
  unfold dateOf. replace (D / 146097) with 0 by (symmetry; apply Z.div_small; lia). replace (D - 146097 * 0) with D by lia. cbv zeta.
  assert (E1 : D / 36524 - D / 36524 / 4 = a).
  { assert (K : D / 36524 = a \/ D / 36524 = 4 /\ a = 3).
    { destruct (Z.eq_dec (1461 * b + 365 * c + x) 36524) as [Q|Q].
      - right. split; [|lia]. symmetry. apply (Z.div_unique _ _ _ 0); unfold D; lia.
      - left. symmetry. apply (Z.div_unique _ _ _ (1461 * b + 365 * c + x)); unfold D; lia. }
    destruct K as [->|[-> ->]]; [rewrite (Z.div_small a 4) by lia; lia|reflexivity]. }
  rewrite E1. replace (D - 36524 * a) with (1461 * b + (365 * c + x)) by (unfold D; lia).
  assert (E2 : (1461 * b + (365 * c + x)) / 1461 = b) by (symmetry; apply (Z.div_unique _ _ _ (365 * c + x)); lia).
  rewrite E2. replace (1461 * b + (365 * c + x) - 1461 * b) with (365 * c + x) by lia.
  assert (E3 : (365 * c + x) / 365 - (365 * c + x) / 365 / 4 = c).
  { assert (K : (365 * c + x) / 365 = c \/ (365 * c + x) / 365 = 4 /\ c = 3).
    { destruct X' as [X'|[-> [-> _]]]; [left; symmetry; apply (Z.div_unique _ _ _ x); lia|right; split; reflexivity]. }
    destruct K as [->|[-> ->]]; [rewrite (Z.div_small c 4) by lia; lia|reflexivity]. }
  rewrite E3. replace (365 * c + x - 365 * c) with x by lia.
  replace (400 * 0 + 100 * a + 4 * b + c + 1) with y by (unfold y; lia). unfold monthDay.
  destruct (isLeap y); [destruct (59 <? x); [|destruct (x =? 59); [reflexivity|]]|]; destruct (daysBefore _ <=? _); reflexivity.
Qed.
Lemma dayOf_parts : forall a b c m d, 0 <= a <= 3 -> 0 <= b <= 24 -> 0 <= c <= 3 -> let y := 100 * a + 4 * b + c + 1 in
  dayOf y m d = 36524 * a + 1461 * b + 365 * c + (daysBefore (m - 1) + (if isLeap y && (3 <=? m) then 1 else 0) + (d - 1)).
Proof.
  intros a b c m d A B C y. unfold dayOf. cbv zeta.
  replace ((y - 1) / 400) with 0 by (symmetry; apply Z.div_small; unfold y; lia).
  replace (y - 1 - 400 * 0) with (100 * a + (4 * b + c)) by (unfold y; lia).
  replace ((100 * a + (4 * b + c)) / 100) with a by (apply (Z.div_unique _ _ _ (4 * b + c)); lia).
  replace (100 * a + (4 * b + c) - 100 * a) with (4 * b + c) by lia.
  replace ((4 * b + c) / 4) with b by (apply (Z.div_unique _ _ _ c); lia). lia.
Qed.
Lemma parts_exist : forall r, 0 <= r < 146097 -> exists a b c x, 0 <= a <= 3 /\ 0 <= b <= 24 /\ 0 <= c <= 3 /\
  0 <= x < yearDays (isLeap (100 * a + 4 * b + c + 1)) /\ r = 36524 * a + 1461 * b + 365 * c + x.
Proof.
  intros r R. assert (Ha : exists a u, 0 <= a <= 3 /\ r = 36524 * a + u /\ (0 <= u < 36524 \/ a = 3 /\ u = 36524)).
  { pose proof (Z.div_mod r 36524 ltac:(lia)). pose proof (Z.mod_pos_bound r 36524 ltac:(lia)).
    destruct (Z.eq_dec r 146096) as [->|N]; [exists 3, 36524; lia|]. exists (r / 36524), (r mod 36524). lia. }
  destruct Ha as (a & u & A & -> & U).
  assert (Hb : exists b v, 0 <= b <= 24 /\ u = 1461 * b + v /\ (0 <= v < 1460 \/ v = 1460 /\ (b <= 23 \/ a = 3))).
  { pose proof (Z.div_mod u 1461 ltac:(lia)). pose proof (Z.mod_pos_bound u 1461 ltac:(lia)). exists (u / 1461), (u mod 1461). lia. }
  destruct Hb as (b & v & B & -> & V).
  assert (Hc : exists c x, 0 <= c <= 3 /\ v = 365 * c + x /\ (0 <= x < 365 \/ x = 365 /\ c = 3 /\ (b <= 23 \/ a = 3))).
  { pose proof (Z.div_mod v 365 ltac:(lia)). pose proof (Z.mod_pos_bound v 365 ltac:(lia)).
    destruct (Z.eq_dec v 1460) as [->|N]; [exists 3, 365; lia|]. exists (v / 365), (v mod 365). lia. }
  destruct Hc as (c & x & C & -> & X). exists a, b, c, x. split; [exact A|]. split; [exact B|]. split; [exact C|]. split; [|lia].
  rewrite leap_parts by assumption. unfold yearDays. destruct X as [X|(-> & -> & K)]; [destruct (_ && _); lia|].
  replace ((3 =? 3) && (negb (b =? 24) || (a =? 3))) with true; [lia|]. symmetry. apply andb_true_intro. split; [reflexivity|]. apply orb_true_iff.
  destruct K as [K| ->]; [left; apply negb_true_iff, Z.eqb_neq; lia|right; reflexivity].
Qed.
Lemma daysIn_month : forall m y, 1 <= m <= 12 -> daysIn m y = month_days (isLeap y) m.
Proof.
  intros m y M. unfold daysIn. assert (K : m = 1 \/ m = 2 \/ m = 3 \/ m = 4 \/ m = 5 \/ m = 6 \/ m = 7 \/ m = 8 \/ m = 9 \/ m = 10 \/ m = 11 \/ m = 12) by lia.
  repeat (destruct K as [->|K]; [destruct (isLeap y); reflexivity|]). subst m. destruct (isLeap y); reflexivity.
Qed.
Lemma parts_next : forall a b c x, 0 <= a <= 3 -> 0 <= b <= 24 -> 0 <= c <= 3 -> let y := 100 * a + 4 * b + c + 1 in
  x + 1 = yearDays (isLeap y) -> dateOf (36524 * a + 1461 * b + 365 * c + x + 1) = (y + 1, 1, 1).
Proof.
  intros a b c x A B C y X. pose proof (leap_parts a b c A B C) as L. fold y in L.
  assert (F : forall z, monthDay z 0 = (1, 1)) by (intros []; reflexivity).
  assert (P : forall a' b' c', 0 <= a' <= 3 -> 0 <= b' <= 24 -> 0 <= c' <= 3 -> 36524 * a' + 1461 * b' + 365 * c' = 36524 * a + 1461 * b + 365 * c + x + 1 ->
    100 * a' + 4 * b' + c' = y -> dateOf (36524 * a + 1461 * b + 365 * c + x + 1) = (y + 1, 1, 1)).
  { intros a' b' c' A' B' C' E Y. rewrite <- E. rewrite <- (Z.add_0_r (36524 * a' + 1461 * b' + 365 * c')). rewrite (dateOf_parts a' b' c' 0 A' B' C').
    - rewrite F, Y. reflexivity.
    - unfold yearDays. destruct (isLeap (100 * a' + 4 * b' + c' + 1)); lia. }
  destruct (Z.eq_dec c 3) as [->|Nc].
  - destruct (Z.eq_dec b 24) as [->|Nb].
    + destruct (Z.eq_dec a 3) as [->|Na].
      * cbn in X. replace x with 365 by lia. unfold y. vm_compute. reflexivity.
      * rewrite L in X. apply Z.eqb_neq in Na as Na'. rewrite Na' in X. cbn in X. apply (P (a + 1) 0 0); unfold y; lia.
    + rewrite L in X. apply Z.eqb_neq in Nb as Nb'. rewrite Nb' in X. cbn in X. apply (P a (b + 1) 0); unfold y; lia.
  - rewrite L in X. apply Z.eqb_neq in Nc as Nc'. rewrite Nc' in X. cbn in X. apply (P a b (c + 1)); unfold y; lia.
Qed.

Lemma daysIn_400 : forall m y k, daysIn m (y + 400 * k) = daysIn m y.
Proof. intros. unfold daysIn. rewrite isLeap_400. reflexivity. Qed.

(** All there is to know about a day *)
Lemma day_facts : forall D, let '(y, m, d) := dateOf D in
  dayOf y m d = D /\ 1 <= m <= 12 /\ 1 <= d <= daysIn m y /\ daysIn m y = month_days (isLeap y) m /\ next_day (y, m, d) (dateOf (D + 1)).
Proof.
  intro D. pose proof (Z.div_mod D 146097 ltac:(lia)) as E. pose proof (Z.mod_pos_bound D 146097 ltac:(lia)) as R.
  set (k := D / 146097) in *. set (r := D mod 146097) in *.
  assert (N : dateOf (D + 1) = let '(y, m, d) := dateOf (r + 1) in (y + 400 * k, m, d)).
  { destruct (Z.eq_dec r 146096) as [L|L].
    - rewrite L. replace (D + 1) with (0 + 146097 * (k + 1)) by lia. rewrite dateOf_400 by lia.
      replace (dateOf 0) with (1, 1, 1) by reflexivity. replace (dateOf (146096 + 1)) with (401, 1, 1) by (vm_compute; reflexivity). f_equal. f_equal. lia.
    - replace (D + 1) with (r + 1 + 146097 * k) by lia. apply dateOf_400. lia. }
  rewrite N. replace D with (r + 146097 * k) by lia. rewrite dateOf_400 by lia. clearbody k r. clear N E.
  destruct (parts_exist r R) as (a & b & c & x & A & B & C & X & ->).
  rewrite dateOf_parts by assumption. pose proof (okYearDay_all _ x X) as O. pose proof (dayOf_parts a b c) as DP. cbv zeta in DP.
  pose proof (fun X' => dateOf_parts a b c (x + 1) A B C X') as NX. pose proof (parts_next a b c x A B C) as NY. cbv zeta in NX, NY.
  replace (36524 * a + 1461 * b + 365 * c + (x + 1)) with (36524 * a + 1461 * b + 365 * c + x + 1) in NX by lia.
  set (y := 100 * a + 4 * b + c + 1) in *. unfold okYearDay in O.
  destruct (monthDay (isLeap y) x) as [m d]. destruct (monthDay (isLeap y) (x + 1)) as [m' d']. cbn [fst snd] in *.
  rewrite !andb_true_iff, !orb_true_iff, !andb_true_iff, !Z.eqb_eq, !Z.leb_le, !Z.ltb_lt in O.
  destruct O as [[[[[O1 O2] O3] O4] O5] O7].
  rewrite dayOf_400, daysIn_400, isLeap_400, DP by assumption. split; [lia|]. split; [lia|]. rewrite daysIn_month by lia. split; [lia|]. split; [reflexivity|].
  destruct O7 as [[[[[O6 ->] ->] X']|[[[[O6 ->] ->] X'] Y]]|[[O6 ->] ->]].
  - rewrite NX by lia. apply (nd_day _ _ _ (isLeap y)); [rewrite <- isLeap_leap, isLeap_400; reflexivity|exact X'].
  - rewrite NX by lia. apply (nd_month _ _ _ (isLeap y)); [rewrite <- isLeap_leap, isLeap_400; reflexivity|exact X'|exact Y].
  - rewrite (NY O6). replace (y + 1 + 400 * k) with (y + 400 * k + 1) by lia. apply nd_year.
Qed.

(** * The parts of a time *)
Lemma fields_facts : forall t, let f := fieldsOf t in
  dateOf (t / nsDay) = (fyear f, fmonth f, fday f) /\ dayOf (fyear f) (fmonth f) (fday f) = t / nsDay /\
  1 <= fmonth f <= 12 /\ 1 <= fday f <= daysIn (fmonth f) (fyear f) /\ 0 <= fhour f <= 23 /\ 0 <= fmin f <= 59 /\ 0 <= fsec f <= 59 /\ 0 <= fnsec f < 1000000000 /\
  t mod nsDay = (fhour f * 3600 + fmin f * 60 + fsec f) * 1000000000 + fnsec f.
Proof.
  intro t. unfold fieldsOf. pose proof (day_facts (t / nsDay)) as F. destruct (dateOf (t / nsDay)) as [[y m] d]. cbn [fyear fmonth fday fhour fmin fsec fnsec].
  destruct F as (F1 & F2 & F3 & _ & _). split; [reflexivity|]. split; [exact F1|]. split; [exact F2|]. split; [exact F3|].
  change second with 1000000000. change nsDay with 86400000000000.
  pose proof (Z.mod_pos_bound t 86400000000000 ltac:(lia)) as B. set (u := t mod 86400000000000) in *.
  assert (M : t mod 1000000000 = u mod 1000000000).
  { unfold u. rewrite (Z.div_mod t 86400000000000) at 1 by lia. replace (86400000000000 * (t / 86400000000000)) with (86400 * (t / 86400000000000) * 1000000000) by lia.
    rewrite Z.add_comm. apply Z_mod_plus_full. }
  rewrite M. clearbody u. clear M F1 F2 F3.
  pose proof (Z.div_mod u 1000000000 ltac:(lia)). pose proof (Z.mod_pos_bound u 1000000000 ltac:(lia)). set (s := u / 1000000000) in *. set (ns := u mod 1000000000) in *.
  pose proof (Z.div_mod s 3600 ltac:(lia)). pose proof (Z.mod_pos_bound s 3600 ltac:(lia)).
  assert (M : s mod 60 = s mod 3600 mod 60).
  { rewrite (Z.div_mod s 3600) at 1 by lia. replace (3600 * (s / 3600)) with (60 * (s / 3600) * 60) by lia. rewrite Z.add_comm. apply Z_mod_plus_full. }
  rewrite M. set (r := s mod 3600) in *. pose proof (Z.div_mod r 60 ltac:(lia)). pose proof (Z.mod_pos_bound r 60 ltac:(lia)). lia.
Qed.
Lemma timeOf_fieldsOf : forall t, timeOf (fieldsOf t) = t.
Proof.
  intro t. pose proof (fields_facts t) as F. cbv zeta in F. destruct F as (_ & F1 & _ & _ & _ & _ & _ & _ & F2). unfold timeOf. rewrite F1. change second with 1000000000.
  pose proof (Z.div_mod t nsDay ltac:(discriminate)). lia.
Qed.

(** * Digits *)
Lemma lastDigits_length : forall n x, List.length (lastDigits n x) = n.
Proof. induction n as [|n IH]; intro x; cbn [lastDigits]; [reflexivity|]. rewrite app_length, IH. cbn. lia. Qed.
Lemma lastDigits_digits : forall n x, forallb isDigit (lastDigits n x) = true.
Proof.
  induction n as [|n IH]; intro x; cbn [lastDigits]; [reflexivity|]. rewrite forallb_app, IH. cbn [forallb]. pose proof (Z.mod_pos_bound x 10 ltac:(lia)).
  unfold isDigit. rewrite !(proj2 (Z.leb_le _ _)) by lia. reflexivity.
Qed.
Lemma valueOf_snoc : forall l c, valueOf (l ++ [c]) = valueOf l * 10 + (c - 48).
Proof. intros. unfold valueOf. rewrite fold_left_app. reflexivity. Qed.
Lemma valueOf_lastDigits : forall n x, valueOf (lastDigits n x) = x mod 10 ^ Z.of_nat n.
Proof.
  induction n as [|n IH]; intro x; cbn [lastDigits]; [rewrite Z.mod_1_r; reflexivity|].
  rewrite valueOf_snoc, IH, Nat2Z.inj_succ, Z.pow_succ_r by lia.
  rewrite (Z.rem_mul_r x 10 (10 ^ Z.of_nat n)); [lia|lia|apply Z.pow_pos_nonneg; lia].
Qed.
Lemma firstn_lastDigits : forall n k x, firstn n (lastDigits (n + k) x) = lastDigits n (x / 10 ^ Z.of_nat k).
Proof.
  intros n k. induction k as [|k IH]; intro x.
  - rewrite Nat.add_0_r. cbn [Z.of_nat]. rewrite Z.div_1_r. rewrite <- (lastDigits_length n x) at 1. apply firstn_all.
  - rewrite Nat.add_succ_r. cbn [lastDigits]. rewrite firstn_app, lastDigits_length. replace (n - (n + k))%nat with 0%nat by lia. cbn [firstn]. rewrite app_nil_r, IH.
    rewrite Nat2Z.inj_succ, Z.pow_succ_r by lia. rewrite Z.div_div by (try apply Z.pow_nonneg; lia || lia). reflexivity.
Qed.
Lemma digitsOf_le : forall n fuel x, 0 <= x < 10 ^ Z.of_nat n -> (1 <= n)%nat -> (digitsOf fuel x <= n)%nat.
Proof.
  induction n as [|n IH]; intros fuel x X N; [lia|]. destruct fuel as [|fuel]; cbn [digitsOf]; [lia|]. destruct (x <? 10) eqn:L; [lia|]. apply Z.ltb_ge in L.
  rewrite Nat2Z.inj_succ, Z.pow_succ_r in X by lia. destruct n as [|n]; [cbn in X; lia|].
  apply le_n_S. apply IH; [|lia]. split; [apply Z.div_pos; lia|]. apply Z.div_lt_upper_bound; lia.
Qed.
Lemma appendInt_digits : forall x n, 0 <= x < 10 ^ Z.of_nat n -> (1 <= n)%nat -> appendInt x n = lastDigits n x.
Proof.
  intros x n X N. unfold appendInt. rewrite (proj2 (Z.ltb_ge x 0)) by lia. cbn [app]. rewrite Z.abs_eq by lia.
  pose proof (digitsOf_le n 20 x X N). rewrite Nat.max_l by lia. reflexivity.
Qed.
Lemma two_digits : forall x, 0 <= x <= 99 -> appendInt x 2 = [48 + x / 10; 48 + x mod 10].
Proof. intros x X. rewrite appendInt_digits by (cbn; lia). cbn [lastDigits app]. rewrite (Z.mod_small (x / 10)) by (split; [apply Z.div_pos; lia|apply Z.div_lt_upper_bound; lia]). reflexivity. Qed.
Lemma isDigit_spec : forall c, isDigit c = true <-> digit c.
Proof. intro c. unfold isDigit, digit. rewrite andb_true_iff, !Z.leb_le. tauto. Qed.
Lemma getnum_two : forall x b rest, 0 <= x <= 99 -> getnum (appendInt x 2 ++ rest) b = Some (x, rest).
Proof.
  intros x b rest X. rewrite two_digits by exact X. cbn [app getnum].
  pose proof (Z.div_mod x 10 ltac:(lia)). pose proof (Z.mod_pos_bound x 10 ltac:(lia)).
  rewrite !(proj2 (isDigit_spec _)) by (unfold digit; lia). cbn [negb]. f_equal. f_equal. lia.
Qed.

(** * What Format writes is read *)
Lemma skipPrefix_app : forall p rest, skipPrefix (p ++ rest) p = Some rest.
Proof. induction p as [|c p IH]; intro rest; [destruct rest; reflexivity|]. cbn [app skipPrefix]. rewrite Z.eqb_refl. apply IH. Qed.
Definition setStd (s : std) (f g : fields) : fields :=
  match s with
  | SYear => mkFields (fyear g) (fmonth f) (fday f) (fhour f) (fmin f) (fsec f) (fnsec f)
  | SMonth => mkFields (fyear f) (fmonth g) (fday f) (fhour f) (fmin f) (fsec f) (fnsec f)
  | SDay => mkFields (fyear f) (fmonth f) (fday g) (fhour f) (fmin f) (fsec f) (fnsec f)
  | SHour => mkFields (fyear f) (fmonth f) (fday f) (fhour g) (fmin f) (fsec f) (fnsec f)
  | SMinute => mkFields (fyear f) (fmonth f) (fday f) (fhour f) (fmin g) (fsec f) (fnsec f)
  | SSecond => mkFields (fyear f) (fmonth f) (fday f) (fhour f) (fmin f) (fsec g) (fnsec f)
  | SFrac n => mkFields (fyear f) (fmonth f) (fday f) (fhour f) (fmin f) (fsec f) (fnsec g / 10 ^ (9 - Z.of_nat n) * 10 ^ (9 - Z.of_nat n))
  | SOther => f
  end.
Definition inRange (g : fields) : Prop :=
  0 <= fyear g <= 9999 /\ 1 <= fmonth g <= 12 /\ 1 <= fday g <= 31 /\ 0 <= fhour g <= 23 /\ 0 <= fmin g <= 59 /\ 0 <= fsec g <= 59 /\ 0 <= fnsec g < 1000000000.
(** Text that is not taken for a fraction *)
Definition no_dot_digit (l : bytes) : Prop := match l with 46 :: r => digitFirst r = false | _ => True end.
Lemma leadingDigits_none : forall l, digitFirst l = false -> leadingDigits l = [].
Proof. intros [|c l] H; [reflexivity|]. cbn in *. rewrite H. reflexivity. Qed.

Lemma firstn_exact : forall (A : Type) n (a b : list A), List.length a = n -> firstn n (a ++ b) = a.
Proof. intros A n a b <-. rewrite firstn_app, firstn_all, Nat.sub_diag. cbn [firstn]. apply app_nil_r. Qed.
Lemma skipn_exact : forall (A : Type) n (a b : list A), List.length a = n -> skipn n (a ++ b) = b.
Proof. intros A n a b <-. rewrite skipn_app, skipn_all, Nat.sub_diag. reflexivity. Qed.
Lemma parse_formatted : forall s later f g rest, inRange g -> match s with SFrac n => (1 <= n <= 9)%nat | SOther => False | _ => True end ->
  (s = SSecond -> nextIsFrac later = false -> no_dot_digit rest) -> parseStd s later f (formatStd g s ++ rest) = Some (setStd s f g, rest).
Proof.
  intros s later f g rest (R1 & R2 & R3 & R4 & R5 & R6 & R7) K D.
  destruct s; cbn [parseStd formatStd setStd]; try contradiction K.
  - rewrite appendInt_digits by (cbn; lia). rewrite app_length, lastDigits_length.
    rewrite firstn_exact, skipn_exact by apply lastDigits_length.
    rewrite lastDigits_digits. cbn [negb]. rewrite orb_false_r. rewrite (proj2 (Nat.ltb_ge _ _)) by lia.
    rewrite valueOf_lastDigits. rewrite Z.mod_small by (cbn; lia). reflexivity.
  - rewrite getnum_two by lia. cbn [obind]. rewrite (proj2 (Z.leb_gt _ _)), (proj2 (Z.ltb_ge _ _)) by lia. reflexivity.
  - rewrite getnum_two by lia. reflexivity.
  - rewrite getnum_two by lia. cbn [obind]. rewrite (proj2 (Z.leb_gt _ _)) by lia. reflexivity.
  - rewrite getnum_two by lia. cbn [obind]. rewrite (proj2 (Z.leb_gt _ _)) by lia. reflexivity.
  - rewrite getnum_two by lia. cbn [obind]. rewrite (proj2 (Z.leb_gt _ _)) by lia.
    destruct rest as [|c r]; [reflexivity|]. destruct (Z.eq_dec c 46) as [->|N].
    + destruct (nextIsFrac later) eqn:NF; [rewrite andb_false_r; reflexivity|]. specialize (D eq_refl eq_refl). cbn [no_dot_digit] in D. rewrite D. reflexivity.
    + destruct c as [|c|c]; try reflexivity. do 6 (destruct c as [c|c|]; try reflexivity). now elim N.
  - cbn [app].
    assert (E : firstn n (lastDigits 9 (fnsec g)) = lastDigits n (fnsec g / 10 ^ (9 - Z.of_nat n))).
    { replace 9%nat with (n + (9 - n))%nat by lia. rewrite firstn_lastDigits. rewrite Nat2Z.inj_sub by lia. reflexivity. }
    rewrite E. rewrite app_length, lastDigits_length, (proj2 (Nat.ltb_ge _ _)) by lia.
    rewrite firstn_exact, skipn_exact by apply lastDigits_length. set (ds := lastDigits n (fnsec g / 10 ^ (9 - Z.of_nat n))).
    assert (L : List.length ds = n) by apply lastDigits_length.
    assert (V : valueOf ds = fnsec g / 10 ^ (9 - Z.of_nat n)).
    { unfold ds. rewrite valueOf_lastDigits. apply Z.mod_small. split; [apply Z.div_pos; [lia|apply Z.pow_pos_nonneg; lia]|]. apply Z.div_lt_upper_bound; [apply Z.pow_pos_nonneg; lia|].
      rewrite <- Z.pow_add_r by lia. replace (9 - Z.of_nat n + Z.of_nat n) with 9 by lia. lia. }
    unfold nanoseconds. unfold ds at 1. rewrite lastDigits_digits. destruct ds as [|c ds']; [cbn in L; lia|]. cbn [andb negb].
    rewrite V. assert (B : fnsec g / 10 ^ (9 - Z.of_nat n) < 10 ^ 9).
    { pose proof (Z.pow_pos_nonneg 10 (9 - Z.of_nat n) ltac:(lia) ltac:(lia)). apply Z.div_lt_upper_bound; [lia|]. change (10 ^ 9) with 1000000000. nia. }
    rewrite (proj2 (Z.ltb_lt _ _) B). cbn [obind]. unfold lenZ. rewrite L. rewrite Z.max_r by lia. reflexivity.
Qed.

Lemma formatStd_digit : forall g s, inRange g -> match s with SFrac _ | SOther => False | _ => True end -> exists c l, formatStd g s = c :: l /\ isDigit c = true.
Proof.
  intros g s (R1 & R2 & R3 & R4 & R5 & R6 & R7) K.
  assert (T : forall x n, 0 <= x < 10 ^ Z.of_nat n -> (1 <= n)%nat -> exists c l, appendInt x n = c :: l /\ isDigit c = true).
  { intros x n X N. rewrite appendInt_digits by assumption. pose proof (lastDigits_length n x) as L. pose proof (lastDigits_digits n x) as A.
    destruct (lastDigits n x) as [|c l]; [cbn in L; lia|]. exists c, l. split; [reflexivity|]. cbn [forallb] in A. apply andb_prop in A as [A _]. exact A. }
  destruct s; cbn [formatStd]; try contradiction K; apply T; cbn; lia.
Qed.
Lemma no_dot_other : forall c r, c <> 46 -> no_dot_digit (c :: r).
Proof. intros c r N. destruct c as [|c|c]; try exact I. do 6 (destruct c as [c|c|]; try exact I). now elim N. Qed.
Lemma dot_digit_other : forall c r b, c <> 46 -> dot_digit (c :: r) b = false.
Proof. intros c r b N. destruct c as [|c|c]; try reflexivity. do 6 (destruct c as [c|c|]; try reflexivity). now elim N. Qed.
Lemma dot_digit_end : forall e, dot_digit e false = false -> no_dot_digit e.
Proof.
  intros [|c r] H; [exact I|]. destruct (Z.eq_dec c 46) as [->|N]; [|apply no_dot_other; exact N].
  destruct r as [|c r]; [reflexivity|]. exact H.
Qed.
Lemma dot_digit_more : forall p c l, dot_digit p true = false -> isDigit c = true -> no_dot_digit (p ++ c :: l).
Proof.
  intros [|a p] c l H D; cbn [app].
  - apply no_dot_other. intros ->. discriminate D.
  - destruct (Z.eq_dec a 46) as [->|N]; [|apply no_dot_other; exact N]. destruct p as [|b p]; [discriminate H|]. exact H.
Qed.
Lemma formatChunks_cons : forall g p s cs e, formatChunks g ((p, s) :: cs) e = p ++ formatStd g s ++ formatChunks g cs e.
Proof. intros. unfold formatChunks. cbn [flat_map fst snd]. rewrite <- !app_assoc. reflexivity. Qed.
Lemma parseChunks_format : forall cs e f g, inRange g -> known cs -> misread cs e = false ->
  parseChunks cs e f (formatChunks g cs e) = Some (fold_left (fun f c => setStd (snd c) f g) cs f).
Proof.
  induction cs as [|[p s] cs IH]; intros e f g R K M.
  - cbn [parseChunks formatChunks flat_map fold_left app]. unfold formatChunks. cbn [flat_map app]. rewrite <- (app_nil_r e) at 1. rewrite skipPrefix_app. reflexivity.
  - cbn [misread] in M. apply orb_false_elim in M as [M1 M2]. rewrite formatChunks_cons. cbn [parseChunks fold_left snd]. rewrite skipPrefix_app. cbn [obind].
    assert (K' : known cs) by (intros p' s' I; exact (K p' s' (or_intror I))).
    rewrite parse_formatted; [cbn [obind]; apply IH; assumption|exact R|exact (K p s (or_introl eq_refl))|].
    intros -> NF. destruct cs as [|[q s'] cs]; [apply dot_digit_end; exact M1|].
    pose proof (K' q s' (or_introl eq_refl)) as Ks. rewrite formatChunks_cons.
    assert (X : match s' with SFrac _ | SOther => False | _ => True end) by (destruct s'; auto; discriminate NF).
    destruct (formatStd_digit g s' R X) as (c & l & -> & D). cbn [app]. apply dot_digit_more; [destruct s'; exact M1 || contradiction X|exact D].
Qed.
Definition told_from (f0 : fields) (cs : list (bytes * std)) (f : fields) : fields :=
  let part s x default := if has s cs then x else default in
  let unit := 10 ^ (9 - Z.of_nat (fraction cs)) in
  mkFields (part SYear (fyear f) (fyear f0)) (part SMonth (fmonth f) (fmonth f0)) (part SDay (fday f) (fday f0)) (part SHour (fhour f) (fhour f0)) (part SMinute (fmin f) (fmin f0))
    (part SSecond (fsec f) (fsec f0)) (match fraction cs with O => fnsec f0 | _ => fnsec f / unit * unit end).
Lemma fold_told : forall cs g f, known cs -> fold_left (fun f c => setStd (snd c) f g) cs f = told_from f cs g.
Proof.
  induction cs as [|[p s] cs IH]; intros g f K; [destruct f; reflexivity|]. cbn [fold_left snd].
  assert (K' : known cs) by (intros p' s' I; exact (K p' s' (or_intror I))). rewrite IH by exact K'.
  pose proof (K p s (or_introl eq_refl)) as Ks. unfold told_from, has. cbn [existsb fraction snd].
  destruct s; try contradiction Ks; cbn [setStd fyear fmonth fday fhour fmin fsec fnsec orb]; destruct (fraction cs) as [|k]; try destruct n as [|n]; try lia; try reflexivity;
    repeat match goal with |- context [existsb ?x cs] => destruct (existsb x cs) end; reflexivity.
Qed.
Lemma isLeap_0 : isLeap 0 = true.
Proof. reflexivity. Qed.
Lemma month_days_bounds : forall b m, 1 <= m <= 12 -> 28 <= month_days b m <= 31 /\ month_days b m <= month_days true m.
Proof.
  intros b m M. assert (K : m = 1 \/ m = 2 \/ m = 3 \/ m = 4 \/ m = 5 \/ m = 6 \/ m = 7 \/ m = 8 \/ m = 9 \/ m = 10 \/ m = 11 \/ m = 12) by lia.
  repeat match goal with H : _ \/ _ |- _ => destruct H as [->|H] | H : m = 12 |- _ => subst m end; destruct b; cbn; lia.
Qed.
Lemma told_valid : forall cs g, 1 <= fmonth g <= 12 -> 1 <= fday g <= daysIn (fmonth g) (fyear g) ->
  let f := told cs g in 1 <= fday f <= daysIn (fmonth f) (fyear f).
Proof.
  intros cs g M D. unfold told. cbn [fday fmonth fyear]. rewrite daysIn_month in D by exact M.
  pose proof (month_days_bounds (isLeap (fyear g)) (fmonth g) M) as U.
  pose proof (month_days_bounds (isLeap (if has SYear cs then fyear g else 0)) (if has SMonth cs then fmonth g else 1) ltac:(destruct (has SMonth cs); lia)) as U2.
  rewrite daysIn_month by (destruct (has SMonth cs); lia).
  destruct (has SDay cs); [|lia]. destruct (has SMonth cs); [|change (month_days _ 1) with 31; lia]. destruct (has SYear cs); [lia|]. rewrite isLeap_0. lia.
Qed.
Lemma parse_format : forall pattern cs e t, layoutOf pattern = (cs, e) -> known cs -> misread cs e = false -> 0 <= fyear (fieldsOf t) <= 9999 ->
  Parse pattern (Format pattern t) = Some (timeOf (told cs (fieldsOf t))).
Proof.
  intros pattern cs e t L K M Y. unfold Parse, Format. rewrite L. pose proof (fields_facts t) as F. cbv zeta in F. destruct F as (_ & _ & F1 & F2 & F3 & F4 & F5 & F6 & _).
  rewrite parseChunks_format; [|repeat split; try lia|exact K|exact M].
  - cbn [obind]. rewrite fold_told by exact K. pose proof (told_valid cs (fieldsOf t) F1 F2) as V. cbv zeta in V. change (told_from (mkFields 0 1 1 0 0 0 0) cs (fieldsOf t)) with (told cs (fieldsOf t)).
    rewrite !(proj2 (Z.ltb_ge _ _)) by lia. reflexivity.
  - rewrite daysIn_month in F2 by exact F1. pose proof (month_days_bounds (isLeap (fyear (fieldsOf t))) (fmonth (fieldsOf t)) F1). lia.
Qed.

(** * Order *)
Lemma step_mono : forall g : Z -> Z, (forall D, g D <= g (D + 1)) -> forall a b, a <= b -> g a <= g b.
Proof.
  intros g S a b L. replace b with (a + Z.of_nat (Z.to_nat (b - a))) by lia. generalize (Z.to_nat (b - a)). clear L b.
  induction n as [|n IH]; [rewrite Z.add_0_r; lia|]. specialize (S (a + Z.of_nat n)). replace (a + Z.of_nat (Datatypes.S n)) with (a + Z.of_nat n + 1) by lia. lia.
Qed.
Definition monthStart (D : Z) : Z := let '(y, m, _) := dateOf D in dayOf y m 1.
Definition yearStart (D : Z) : Z := let '(y, _, _) := dateOf D in dayOf y 1 1.
Lemma dayOf_day : forall y m d, dayOf y m d = dayOf y m 1 + (d - 1).
Proof. intros. unfold dayOf. cbv zeta. lia. Qed.
Lemma dayOf_year : forall y m d, 1 <= m <= 12 -> 1 <= d -> dayOf y 1 1 <= dayOf y m d.
Proof.
  intros y m d M D. unfold dayOf. cbv zeta. change (3 <=? 1) with false. rewrite andb_false_r. change (daysBefore (1 - 1)) with 0.
  assert (0 <= daysBefore (m - 1)).
  { assert (K : m = 1 \/ m = 2 \/ m = 3 \/ m = 4 \/ m = 5 \/ m = 6 \/ m = 7 \/ m = 8 \/ m = 9 \/ m = 10 \/ m = 11 \/ m = 12) by lia.
    repeat match goal with H : _ \/ _ |- _ => destruct H as [->|H] | H : m = 12 |- _ => subst m end; cbv; discriminate. }
  destruct (isLeap y && (3 <=? m)); lia.
Qed.
Lemma monthStart_step : forall D, monthStart D <= monthStart (D + 1).
Proof.
  intro D. unfold monthStart. pose proof (day_facts D) as F. pose proof (day_facts (D + 1)) as G. destruct (dateOf D) as [[y m] d]. destruct F as (F1 & F2 & F3 & _ & F4).
  destruct (dateOf (D + 1)) as [[y' m'] d']. destruct G as (G1 & _). rewrite dayOf_day in F1. inversion F4; subst; lia.
Qed.
Lemma yearStart_step : forall D, yearStart D <= yearStart (D + 1).
Proof.
  intro D. unfold yearStart. pose proof (day_facts D) as F. pose proof (day_facts (D + 1)) as G. destruct (dateOf D) as [[y m] d]. destruct F as (F1 & F2 & F3 & _ & F4).
  destruct (dateOf (D + 1)) as [[y' m'] d']. destruct G as (G1 & _). pose proof (dayOf_year y m d F2 ltac:(lia)). inversion F4; subst; lia.
Qed.
Lemma told_mono : forall cs t1 t2, known cs -> chronological cs -> t1 <= t2 -> timeOf (told cs (fieldsOf t1)) <= timeOf (told cs (fieldsOf t2)).
Proof.
  intros cs t1 t2 K (C1 & C2 & C3 & C4 & C5 & C6) T.
  pose proof (fields_facts t1) as F. pose proof (fields_facts t2) as G. cbv zeta in F, G.
  destruct F as (F0 & F1 & F2 & F3 & F4 & F5 & F6 & F7 & F8). destruct G as (G0 & G1 & G2 & G3 & G4 & G5 & G6 & G7 & G8).
  assert (DM : t1 / nsDay <= t2 / nsDay) by (apply Z.div_le_mono; [reflexivity|exact T]).
  pose proof (step_mono _ monthStart_step _ _ DM) as MM. pose proof (step_mono _ yearStart_step _ _ DM) as YM.
  unfold monthStart, yearStart in MM, YM. rewrite F0, G0 in MM, YM.
  pose proof (Z.div_mod t1 nsDay ltac:(discriminate)) as E1. pose proof (Z.div_mod t2 nsDay ltac:(discriminate)) as E2. rewrite F8 in E1. rewrite G8 in E2.
  unfold told, timeOf. cbn [fyear fmonth fday fhour fmin fsec fnsec]. rewrite C1. change second with 1000000000. change nsDay with 86400000000000 in *.
  destruct (has SMonth cs).
  2: { destruct (has SDay cs); [discriminate (C2 eq_refl)|]. destruct (has SHour cs); [discriminate (C3 eq_refl)|]. destruct (has SMinute cs); [discriminate (C4 eq_refl)|].
       destruct (has SSecond cs); [discriminate (C5 eq_refl)|]. destruct (fraction cs); [|discriminate (C6 ltac:(discriminate))]. lia. }
  destruct (has SDay cs).
  2: { destruct (has SHour cs); [discriminate (C3 eq_refl)|]. destruct (has SMinute cs); [discriminate (C4 eq_refl)|].
       destruct (has SSecond cs); [discriminate (C5 eq_refl)|]. destruct (fraction cs); [|discriminate (C6 ltac:(discriminate))]. lia. }
  rewrite F1, G1. clear F0 G0 F1 G1 MM YM F2 F3 G2 G3 F8 G8.
  destruct (has SHour cs).
  2: { destruct (has SMinute cs); [discriminate (C4 eq_refl)|]. destruct (has SSecond cs); [discriminate (C5 eq_refl)|]. destruct (fraction cs); [|discriminate (C6 ltac:(discriminate))]. lia. }
  destruct (has SMinute cs).
  2: { destruct (has SSecond cs); [discriminate (C5 eq_refl)|]. destruct (fraction cs); [|discriminate (C6 ltac:(discriminate))]. lia. }
  destruct (has SSecond cs).
  2: { destruct (fraction cs); [|discriminate (C6 ltac:(discriminate))]. lia. }
  destruct (fraction cs) as [|n]; [lia|]. set (u := 10 ^ (9 - Z.of_nat (Datatypes.S n))).
  assert (U : 0 <= u) by (apply Z.pow_nonneg; lia). destruct (Z.eq_dec u 0) as [U0|U0].
  - rewrite U0, !Zdiv_0_r. lia.
  - pose proof (Z.div_mod (fnsec (fieldsOf t1)) u U0) as N1. pose proof (Z.mod_pos_bound (fnsec (fieldsOf t1)) u ltac:(lia)) as B1.
    pose proof (Z.div_pos (fnsec (fieldsOf t2)) u ltac:(lia) ltac:(lia)) as N2.
    assert (Q2 : 0 <= fnsec (fieldsOf t2) / u * u) by (apply Z.mul_nonneg_nonneg; lia).
    assert (Q1 : fnsec (fieldsOf t1) / u * u <= fnsec (fieldsOf t1)) by lia.
    assert (X : (fhour (fieldsOf t1) * 3600 + fmin (fieldsOf t1) * 60 + fsec (fieldsOf t1) + 86400 * (t1 / 86400000000000) < fhour (fieldsOf t2) * 3600 + fmin (fieldsOf t2) * 60 + fsec (fieldsOf t2) + 86400 * (t2 / 86400000000000))
      \/ (fhour (fieldsOf t1) * 3600 + fmin (fieldsOf t1) * 60 + fsec (fieldsOf t1) + 86400 * (t1 / 86400000000000) = fhour (fieldsOf t2) * 3600 + fmin (fieldsOf t2) * 60 + fsec (fieldsOf t2) + 86400 * (t2 / 86400000000000) /\ fnsec (fieldsOf t1) <= fnsec (fieldsOf t2))) by lia.
    destruct X as [X|[X Y]]; [lia|]. pose proof (Z.mul_le_mono_nonneg_r _ _ u U (Z.div_le_mono _ _ u ltac:(lia) Y)). lia.
Qed.
(** With everything down to the seconds, what is told is the time, rounded down *)
Lemma told_time : forall cs t, known cs -> chronological cs -> has SSecond cs = true ->
  let unit := 10 ^ (9 - Z.of_nat (fraction cs)) in timeOf (told cs (fieldsOf t)) = t / unit * unit.
Proof.
  intros cs t K (C1 & C2 & C3 & C4 & C5 & C6) S. pose proof (C5 S) as S2. pose proof (C4 S2) as S3. pose proof (C3 S3) as S4. pose proof (C2 S4) as S5. cbv zeta.
  pose proof (fields_facts t) as F. cbv zeta in F. destruct F as (_ & F1 & _ & _ & _ & _ & _ & F7 & F8).
  unfold told, timeOf. cbn [fyear fmonth fday fhour fmin fsec fnsec]. rewrite C1, S, S2, S3, S4, S5, F1. change second with 1000000000.
  pose proof (Z.div_mod t nsDay ltac:(discriminate)) as E. rewrite F8 in E. change nsDay with 86400000000000 in *.
  set (A := 86400 * (t / 86400000000000) + (fhour (fieldsOf t) * 3600 + fmin (fieldsOf t) * 60 + fsec (fieldsOf t))).
  assert (E' : t = A * 1000000000 + fnsec (fieldsOf t)) by (unfold A; lia).
  assert (FR : (fraction cs <= 9)%nat).
  { clear - K. induction cs as [|[p s] cs IH]; cbn [fraction]; [lia|]. pose proof (IH (fun p' s' I => K p' s' (or_intror I))). pose proof (K p s (or_introl eq_refl)).
    destruct (fraction cs); [destruct s; lia|lia]. }
  destruct (fraction cs) as [|n].
  - change (10 ^ (9 - Z.of_nat 0)) with 1000000000. replace (t / 1000000000) with A by (apply (Z.div_unique _ _ _ (fnsec (fieldsOf t))); lia). unfold A. lia.
  - set (u := 10 ^ (9 - Z.of_nat (Datatypes.S n))). assert (U : 0 < u) by (apply Z.pow_pos_nonneg; lia).
    assert (P : 1000000000 = 10 ^ Z.of_nat (Datatypes.S n) * u) by (unfold u; rewrite <- Z.pow_add_r by lia; replace (Z.of_nat (Datatypes.S n) + (9 - Z.of_nat (Datatypes.S n))) with 9 by lia; reflexivity).
    set (w := 10 ^ Z.of_nat (Datatypes.S n)) in *.
    replace (t / u) with (fnsec (fieldsOf t) / u + A * w) by (rewrite <- Z_div_plus_full by lia; f_equal; replace (A * w * u) with (A * (w * u)) by ring; rewrite <- P; lia).
    replace ((fnsec (fieldsOf t) / u + A * w) * u) with (A * (w * u) + fnsec (fieldsOf t) / u * u) by ring. rewrite <- P. unfold A. lia.
Qed.

(** * Which names are read *)
Lemma skipPrefix_inv : forall p v r, skipPrefix v p = Some r -> v = p ++ r.
Proof.
  induction p as [|c p IH]; intros [|d v] r H; cbn [skipPrefix] in H; try discriminate H; try (injection H as <-; reflexivity).
  destruct (Z.eqb_spec d c) as [->|_]; [|discriminate H]. cbn [app]. f_equal. exact (IH _ _ H).
Qed.
Lemma number_valueOf : forall l n, number n l = fold_left (fun x c => x * 10 + (c - 48)) l n.
Proof. induction l as [|c l IH]; intro n; [reflexivity|]. cbn [number fold_left]. rewrite IH. f_equal. lia. Qed.
Lemma number_0 : forall l, number 0 l = valueOf l.
Proof. intro l. apply number_valueOf. Qed.
Lemma digits_Forall : forall l, forallb isDigit l = true <-> Forall digit l.
Proof. intro l. rewrite forallb_forall, Forall_forall. split; intros H x I; apply isDigit_spec, H, I. Qed.
Lemma isDigit_not : forall c, isDigit c = false <-> ~ digit c.
Proof. intro c. rewrite <- isDigit_spec. destruct (isDigit c); split; congruence. Qed.
Lemma digitFirst_not : forall l, digitFirst l = false <-> not_digit_first l.
Proof. intros [|c l]; cbn [digitFirst not_digit_first]; [tauto|apply isDigit_not]. Qed.
Lemma getnum_fixed : forall v x r, getnum v true = Some (x, r) <-> exists l, two x l /\ v = l ++ r.
Proof.
  intros v x r. split.
  - intro H. destruct v as [|a [|b v]]; cbn [getnum] in H; [discriminate H|destruct (isDigit a); discriminate H|].
    destruct (isDigit a) eqn:A; [|discriminate H]. cbn [negb] in H. destruct (isDigit b) eqn:B; [|discriminate H]. injection H as <- <-.
    apply isDigit_spec in A, B. exists [a; b]. split; [|reflexivity]. exists a, b. repeat split; try apply A; try apply B. lia.
  - intros (l & (a & b & A & B & -> & ->) & ->). cbn [app getnum]. apply isDigit_spec in A, B. rewrite A, B. cbn [negb]. f_equal. f_equal. lia.
Qed.
Lemma getnum_free : forall v x r, getnum v false = Some (x, r) <-> (exists l, two x l /\ v = l ++ r) \/ (exists c, digit c /\ not_digit_first r /\ x = c - 48 /\ v = c :: r).
Proof.
  intros v x r. split.
  - intro H. destruct v as [|a v]; cbn [getnum] in H; [discriminate H|]. destruct (isDigit a) eqn:A; [|discriminate H]. cbn [negb] in H. apply isDigit_spec in A as A'.
    destruct v as [|b v]; [injection H as <- <-; right; exists a; repeat split; apply A'|]. destruct (isDigit b) eqn:B.
    + injection H as <- <-. left. exists [a; b]. split; [|reflexivity]. exists a, b. apply isDigit_spec in B. repeat split; try apply A'; try apply B. lia.
    + injection H as <- <-. right. exists a. split; [exact A'|]. split; [apply isDigit_not; exact B|]. split; reflexivity.
  - intros [(l & (a & b & A & B & -> & ->) & ->)|(c & C & N & -> & ->)]; cbn [app getnum].
    + apply isDigit_spec in A, B. rewrite A, B. cbn [negb]. f_equal. f_equal. lia.
    + apply isDigit_spec in C. rewrite C. cbn [negb]. destruct r as [|b r]; [reflexivity|]. cbn [not_digit_first] in N. apply isDigit_not in N. rewrite N. reflexivity.
Qed.
Lemma leading_split : forall l, l = leadingDigits l ++ skipn (List.length (leadingDigits l)) l /\ Forall digit (leadingDigits l) /\ not_digit_first (skipn (List.length (leadingDigits l)) l).
Proof.
  induction l as [|c l (A & B & C)]; [repeat split; constructor|]. cbn [leadingDigits]. destruct (isDigit c) eqn:D.
  - cbn [List.length skipn app]. split; [f_equal; exact A|]. split; [|exact C]. constructor; [apply isDigit_spec; exact D|exact B].
  - cbn [List.length skipn app]. split; [reflexivity|]. split; [constructor|]. apply isDigit_not; exact D.
Qed.
Lemma leading_unique : forall ds rest, Forall digit ds -> not_digit_first rest -> leadingDigits (ds ++ rest) = ds.
Proof.
  induction 1 as [|c ds C D IH]; intro N; cbn [app].
  - apply leadingDigits_none, digitFirst_not, N.
  - cbn [leadingDigits]. apply isDigit_spec in C. rewrite C. f_equal. exact (IH N).
Qed.
Lemma nanoseconds_spec : forall ds ns, nanoseconds ds = Some ns <-> Forall digit ds /\ ds <> [] /\ number 0 ds < 1000000000 /\ ns = number 0 ds * 10 ^ Z.max 0 (9 - lenZ ds).
Proof.
  intros ds ns. unfold nanoseconds. rewrite number_0. change (10 ^ 9) with 1000000000. split.
  - destruct (forallb isDigit ds) eqn:A; [|discriminate]. destruct ds as [|c ds]; [discriminate|]. cbn [negb andb].
    destruct (Z.ltb_spec (valueOf (c :: ds)) 1000000000) as [B|B]; [|discriminate]. intro H. injection H as <-. apply digits_Forall in A. repeat split; [exact A|discriminate|exact B].
  - intros (A & B & C & ->). apply digits_Forall in A. rewrite A. destruct ds as [|c ds]; [now elim B|]. cbn [negb andb]. apply Z.ltb_lt in C. rewrite C. reflexivity.
Qed.
Lemma nextIsFrac_false : forall cs, nextIsFrac cs = false -> match cs with (_, SFrac _) :: _ => False | _ => True end.
Proof. intros [|[p []] cs] H; cbn in *; auto; discriminate. Qed.
Lemma reads_of_parse : forall cs e f v f', parseChunks cs e f v = Some f' -> reads e cs f v f'.
Proof.
  induction cs as [|[p s] cs IH]; intros e f v f' H; cbn [parseChunks] in H.
  - destruct (skipPrefix v e) as [[|c r]|] eqn:K; cbn [obind] in H; try discriminate H. injection H as <-. apply skipPrefix_inv in K. rewrite app_nil_r in K. subst v. constructor.
  - destruct (skipPrefix v p) as [w|] eqn:K; cbn [obind] in H; [|discriminate H]. apply skipPrefix_inv in K. subst v. destruct f as [y m d h i sc ns].
    destruct s; cbn [parseStd fyear fmonth fday fhour fmin fsec fnsec] in H.
    + destruct (Nat.ltb_spec (List.length w) 4) as [L|L]; [discriminate H|]. cbn [orb] in H. destruct (forallb isDigit (firstn 4 w)) eqn:D; [|discriminate H]. cbn [negb obind] in H.
      rewrite <- (firstn_skipn 4 w). apply digits_Forall in D. apply rd_year; [apply firstn_length_le; exact L|exact D|]. rewrite number_0. apply IH. exact H.
    + destruct (getnum w true) as [[x r]|] eqn:G; cbn [obind] in H; [|discriminate H]. apply getnum_fixed in G as (l & T & ->).
      destruct (Z.leb_spec x 0) as [A|A]; [discriminate H|]. destruct (Z.ltb_spec 12 x) as [B|B]; [discriminate H|]. cbn [orb obind] in H. eapply rd_month; [exact T|lia|]. apply IH. exact H.
    + destruct (getnum w true) as [[x r]|] eqn:G; cbn [obind] in H; [|discriminate H]. apply getnum_fixed in G as (l & T & ->). eapply rd_day; [exact T|]. apply IH. exact H.
    + destruct (getnum w false) as [[x r]|] eqn:G; cbn [obind] in H; [|discriminate H]. destruct (Z.leb_spec 24 x) as [A|A]; [discriminate H|]. cbn [obind] in H.
      apply getnum_free in G as [(l & T & ->)|(c & C & N & -> & ->)].
      * eapply rd_hour; [exact T|lia|]. apply IH. exact H.
      * apply rd_short_hour; [exact C|exact N|]. apply IH. exact H.
    + destruct (getnum w true) as [[x r]|] eqn:G; cbn [obind] in H; [|discriminate H]. apply getnum_fixed in G as (l & T & ->). destruct (Z.leb_spec 60 x) as [A|A]; [discriminate H|]. cbn [obind] in H.
      eapply rd_minute; [exact T|lia|]. apply IH. exact H.
    + destruct (getnum w true) as [[x r]|] eqn:G; cbn [obind] in H; [|discriminate H]. apply getnum_fixed in G as (l & T & ->). destruct (Z.leb_spec 60 x) as [A|A]; [discriminate H|].
      assert (P : (exists r', r = 46 :: r' /\ digitFirst r' && negb (nextIsFrac cs) = true) \/
                  (match r with 46 :: r' => match cs with (_, SFrac _) :: _ => True | _ => not_digit_first r' end | _ => True end /\
                   parseChunks cs e (mkFields y m d h i x ns) r = Some f')).
      { destruct r as [|c r]; [right; split; [exact I|exact H]|]. destruct (Z.eq_dec c 46) as [->|N].
        - destruct (digitFirst r && negb (nextIsFrac cs)) eqn:Q; [left; exists r; split; [reflexivity|exact Q]|]. right. split; [|exact H].
          apply andb_false_iff in Q as [Q|Q]; [apply digitFirst_not in Q; destruct cs as [|[q []] cs]; auto|].
          apply negb_false_iff in Q. destruct cs as [|[q []] cs]; try discriminate Q. exact I.
        - right. assert (X : forall (A : Type) (a b : A), match c with 46 => a | _ => b end = b).
          { intros A0 a b. destruct c as [|c|c]; try reflexivity. do 6 (destruct c as [c|c|]; try reflexivity). now elim N. }
          split; [rewrite X; exact I|]. rewrite X in H. exact H. }
      destruct P as [(r' & -> & Q)|[Q P]].
      * rewrite Q in H. apply andb_prop in Q as [Q1 Q2]. apply negb_true_iff in Q2. destruct (nanoseconds (leadingDigits r')) as [z|] eqn:Z; cbn [obind] in H; [|discriminate H].
        apply nanoseconds_spec in Z as (Z1 & Z2 & Z3 & ->). destruct (leading_split r') as (L1 & L2 & L3). rewrite L1 at 1.
        eapply rd_second_more; [exact T|lia|apply nextIsFrac_false; exact Q2|exact Z2|exact Z1|exact L3|exact Z3|]. apply IH. exact H.
      * eapply rd_second; [exact T|lia|exact Q|]. apply IH. exact P.
    + destruct w as [|c r]; [discriminate H|]. destruct (Z.eq_dec c 46) as [->|N].
      * destruct (Nat.ltb_spec (List.length r) n) as [L|L]; [discriminate H|]. destruct (nanoseconds (firstn n r)) as [z|] eqn:Z; cbn [obind] in H; [|discriminate H].
        apply nanoseconds_spec in Z as (Z1 & Z2 & Z3 & ->). pose proof (firstn_length_le r L) as FL. rewrite <- (firstn_skipn n r) at 1.
        apply rd_frac; [exact FL|intros ->; apply Z2; reflexivity|exact Z1|exact Z3|]. apply IH. exact H.
      * exfalso. destruct c as [|c|c]; try discriminate H. do 6 (destruct c as [c|c|]; try discriminate H). now elim N.
    + discriminate H.
Qed.
Lemma parse_of_reads : forall cs e f v f', reads e cs f v f' -> parseChunks cs e f v = Some f'.
Proof.
  intros cs e f v f' R. induction R; cbn [parseChunks]; rewrite ?skipPrefix_app; cbn [obind parseStd fyear fmonth fday fhour fmin fsec fnsec].
  - rewrite <- (app_nil_r e) at 1. rewrite skipPrefix_app. reflexivity.
  - rewrite firstn_exact, skipn_exact by assumption. rewrite app_length. rewrite (proj2 (Nat.ltb_ge _ _)) by lia. rewrite (proj2 (digits_Forall l)) by assumption. cbn [orb negb obind].
    rewrite <- number_0. exact IHR.
  - rewrite (proj2 (getnum_fixed _ x rest)) by (exists l; split; [assumption|reflexivity]). cbn [obind]. rewrite (proj2 (Z.leb_gt _ _)), (proj2 (Z.ltb_ge _ _)) by lia. exact IHR.
  - rewrite (proj2 (getnum_fixed _ x rest)) by (exists l; split; [assumption|reflexivity]). exact IHR.
  - rewrite (proj2 (getnum_free _ x rest)) by (left; exists l; split; [assumption|reflexivity]). cbn [obind]. rewrite (proj2 (Z.leb_gt _ _)) by lia. exact IHR.
  - rewrite (proj2 (getnum_free _ (c - 48) rest)) by (right; exists c; auto). cbn [obind]. unfold digit in *. rewrite (proj2 (Z.leb_gt _ _)) by lia. exact IHR.
  - rewrite (proj2 (getnum_fixed _ x rest)) by (exists l; split; [assumption|reflexivity]). cbn [obind]. rewrite (proj2 (Z.leb_gt _ _)) by lia. exact IHR.
  - rewrite (proj2 (getnum_fixed _ x rest)) by (exists l; split; [assumption|reflexivity]). cbn [obind]. rewrite (proj2 (Z.leb_gt _ _)) by lia.
    destruct rest as [|c r]; [exact IHR|]. destruct (Z.eq_dec c 46) as [->|N].
    + replace (digitFirst r && negb (nextIsFrac cs)) with false; [exact IHR|]. symmetry. apply andb_false_iff.
      destruct cs as [|[q []] cs]; try (left; apply digitFirst_not; assumption). right. reflexivity.
    + assert (X : forall (A : Type) (a b : A), match c with 46 => a | _ => b end = b).
      { intros A0 a b. destruct c as [|c|c]; try reflexivity. do 6 (destruct c as [c|c|]; try reflexivity). now elim N. }
      rewrite X. exact IHR.
  - rewrite (proj2 (getnum_fixed _ x (46 :: ds ++ rest))) by (exists l; split; [assumption|reflexivity]). cbn [obind]. rewrite (proj2 (Z.leb_gt _ _)) by lia.
    replace (digitFirst (ds ++ rest) && negb (nextIsFrac cs)) with true.
    + rewrite leading_unique by assumption. rewrite (proj2 (nanoseconds_spec ds (number 0 ds * 10 ^ Z.max 0 (9 - lenZ ds)))) by (repeat split; assumption || reflexivity). cbn [obind]. rewrite skipn_exact by reflexivity. exact IHR.
    + symmetry. apply andb_true_intro. split.
      * destruct ds as [|c ds]; [contradiction|]. cbn [app digitFirst]. apply isDigit_spec. match goal with H : Forall digit (c :: ds) |- _ => inversion H; assumption end.
      * destruct cs as [|[q []] cs]; try reflexivity. contradiction.
  - rewrite app_length. rewrite (proj2 (Nat.ltb_ge _ _)) by lia. rewrite firstn_exact, skipn_exact by assumption.
    rewrite (proj2 (nanoseconds_spec ds (number 0 ds * 10 ^ Z.max 0 (9 - lenZ ds)))); [cbn [obind]; exact IHR|]. repeat split; try assumption. intros ->. cbn in *. congruence.
Qed.
