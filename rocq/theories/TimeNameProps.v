(** Property C132: the names of archives by time. *)
From Verif Require Import Base RotationModel RotationSpec RotationProofs TimeNameModel TimeNameSpec TimeNameProofs.
From Verif Require RotationProps.
From Coq Require Import Permutation Sorted.
Local Open Scope Z_scope.

(** ** The calendar of the model is the Gregorian one: day 0 is 1 January of the year 1, and each day is followed by the next. *)
Theorem C132_calendar : dateOf 0 = (1, 1, 1) /\ (forall d, next_day (dateOf d) (dateOf (d + 1))) /\ forall d, let '(y, m, dd) := dateOf d in dayOf y m dd = d.
Proof.
  split; [reflexivity|]. split; intro d; pose proof (day_facts d) as F; destruct (dateOf d) as [[y m] dd]; apply F.
Qed.
(** The parts of a time are those of the calendar and of the clock, and they make up the time. *)
Theorem C132_parts : forall t, let f := fieldsOf t in
  dateOf (t / nsDay) = (fyear f, fmonth f, fday f) /\ 0 <= fhour f < 24 /\ 0 <= fmin f < 60 /\ 0 <= fsec f < 60 /\ 0 <= fnsec f < 1000000000 /\
  t mod 86400000000000 = (fhour f * 3600 + fmin f * 60 + fsec f) * 1000000000 + fnsec f /\ timeOf f = t.
Proof.
  intros t f. pose proof (fields_facts t) as F. cbv zeta in F. fold f in F. destruct F as (F0 & _ & _ & _ & F3 & F4 & F5 & F6 & F7).
  change nsDay with 86400000000000 in *. repeat split; try lia; [exact F0|apply timeOf_fieldsOf].
Qed.

(** ** A layout is taken apart without loss. *)
Lemma starts_inv : forall p l, starts p l = true -> l = p ++ skipn (List.length p) l.
Proof.
  induction p as [|c p IH]; intros [|d l] H; cbn [starts] in H; try discriminate H; try reflexivity. apply andb_prop in H as [A B]. apply Z.eqb_eq in A. subst d.
  change (c :: l = c :: (p ++ skipn (List.length p) l)). rewrite <- (IH _ B). reflexivity.
Qed.
Lemma runOf_inv : forall c l, l = repeat c (runOf c l) ++ skipn (runOf c l) l.
Proof. intro c. induction l as [|d l IH]; [reflexivity|]. cbn [runOf]. destruct (Z.eqb_spec d c) as [->|_]; [|reflexivity]. change (c :: l = c :: (repeat c (runOf c l) ++ skipn (runOf c l) l)). rewrite <- IH. reflexivity. Qed.
Lemma chunkAt_inv : forall l s r, chunkAt l = Some (s, r) -> s <> SOther -> exists x, element s x /\ l = x ++ r.
Proof.
  intros l s r H N. unfold chunkAt in H.
  repeat match type of H with (if ?b then _ else _) = _ => let E := fresh "E" in destruct b eqn:E;
    [try (injection H as <- <-; now elim N); try (injection H as <- <-; apply starts_inv in E; eexists; split; [|exact E]; reflexivity)|] end; try discriminate H.
  injection H as <- <-. apply andb_prop in E25 as [Q _]. apply starts_inv in Q.
  destruct l as [|c l]; [discriminate Q|]. assert (c = 46) as -> by (injection Q; auto). cbn [skipn]. eexists. split; [reflexivity|]. cbn [app]. f_equal. apply runOf_inv.
Qed.
Lemma nextStdChunk_inv : forall l p s r, nextStdChunk l = (p, Some (s, r)) -> s <> SOther -> exists x, element s x /\ l = p ++ x ++ r.
Proof.
  induction l as [|c l IH]; intros p s r H N.
  - cbn [nextStdChunk] in H. destruct (chunkAt []) as [[s' r']|] eqn:E; [|discriminate H]. vm_compute in E. discriminate E.
  - cbn [nextStdChunk] in H. destruct (chunkAt (c :: l)) as [[s' r']|] eqn:E.
    + injection H as <- -> ->. destruct (chunkAt_inv _ _ _ E N) as (x & X & ->). exists x. split; [exact X|reflexivity].
    + destruct (nextStdChunk l) as [p' x'] eqn:Q. injection H as <- ->. destruct (IH _ _ _ eq_refl N) as (x & X & ->). exists x. split; [exact X|reflexivity].
Qed.
Lemma nextStdChunk_none : forall l p, nextStdChunk l = (p, None) -> l = p.
Proof.
  induction l as [|c l IH]; intros p H; cbn [nextStdChunk] in H.
  - destruct (chunkAt []) as [[s' r']|] eqn:E; [vm_compute in E; discriminate E|]. injection H as <-. reflexivity.
  - destruct (chunkAt (c :: l)) as [[s' r']|] eqn:E; [discriminate H|]. destruct (nextStdChunk l) as [p' x'] eqn:Q. injection H as <- ->. f_equal. apply IH. reflexivity.
Qed.
Lemma chunks_inv : forall fuel l cs e, (List.length l < fuel)%nat -> chunks fuel l = (cs, e) -> known cs ->
  exists xs, Forall2 element (map snd cs) xs /\ l = List.concat (map (fun c => fst c ++ snd c) (combine (map fst cs) xs)) ++ e.
Proof.
  induction fuel as [|fuel IH]; intros l cs e L H K; [lia|]. cbn [chunks] in H. destruct (nextStdChunk l) as [p [[s r]|]] eqn:N.
  - destruct (chunks fuel r) as [cs' e'] eqn:C. injection H as <- <-. pose proof (K p s (or_introl eq_refl)) as Ks.
    destruct (nextStdChunk_inv _ _ _ _ N ltac:(intros ->; exact Ks)) as (x & X & ->).
    assert (X1 : (1 <= List.length x)%nat) by (destruct s; cbn [element] in X; try contradiction X; subst x; cbn; lia).
    rewrite !app_length in L. destruct (IH r cs' e' ltac:(lia) C (fun p' s' I => K p' s' (or_intror I))) as (xs & F & E).
    exists (x :: xs). split; [constructor; assumption|]. cbn [map combine List.concat fst snd]. rewrite E at 1. rewrite <- !app_assoc. reflexivity.
  - injection H as <- <-. exists []. split; [constructor|]. cbn [map combine List.concat app]. apply nextStdChunk_none. exact N.
Qed.
Theorem C132_layout : forall pattern cs e, layoutOf pattern = (cs, e) -> known cs ->
  exists xs, Forall2 element (map snd cs) xs /\ pattern = List.concat (map (fun c => fst c ++ snd c) (combine (map fst cs) xs)) ++ e.
Proof. intros pattern cs e L K. exact (chunks_inv _ _ _ _ (Nat.lt_succ_diag_r _) L K). Qed.
(** These are elements too, but what they do is not modelled. *)
Theorem C132_others : forall l, In l (map bs ["January"; "Jan"; "Monday"; "Mon"; "MST"; "03"; "06"; "002"; "1"; "2"; "_2"; "__2"; "3"; "4"; "5"; "PM"; "pm"; "-070000"; "Z070000"; "-07:00:00";
    "Z07:00:00"; "-0700"; "Z0700"; "-07:00"; "Z07:00"; "-07"; ".9"; ".999"]%string) -> layoutOf (bs "x" ++ l) = ([(bs "x", SOther)], []).
Proof. intros l I. cbn [map] in I. repeat (destruct I as [<-|I]; [vm_compute; reflexivity|]). contradiction I. Qed.
(** These are none. *)
Theorem C132_plain : forall l, In l (map bs ["app"; "app-"; "app_"; "Janus"; "Money"; "Z"; "Z08"; "-08"; "P"; "m"; "07"; "0"; "00"; ".log"; ".7z"; "."; "6789"; "MS"; "Mo"; "J"]%string) ->
  layoutOf l = ([], l).
Proof. intros l I. cbn [map] in I. repeat (destruct I as [<-|I]; [vm_compute; reflexivity|]). contradiction I. Qed.

(** ** What Format writes: the text of the layout with the parts of the time, in so many digits. *)
Lemma two_spelled : forall x, 0 <= x <= 99 -> two x (appendInt x 2).
Proof.
  intros x X. rewrite two_digits by exact X. pose proof (Z.div_mod x 10 ltac:(lia)). pose proof (Z.mod_pos_bound x 10 ltac:(lia)).
  exists (48 + x / 10), (48 + x mod 10). unfold digit. repeat split; lia.
Qed.
Lemma format_spelled : forall g s, inRange g -> match s with SFrac n => (1 <= n <= 9)%nat | SOther => False | _ => True end -> spelled g s (formatStd g s).
Proof.
  intros g s (R1 & R2 & R3 & R4 & R5 & R6 & R7) K. destruct s; cbn [spelled formatStd]; try contradiction K; try (apply two_spelled; lia).
  - rewrite appendInt_digits by (cbn; lia). split; [apply lastDigits_length|]. split; [apply digits_Forall, lastDigits_digits|]. rewrite number_0, valueOf_lastDigits. apply Z.mod_small. cbn. lia.
  - eexists. split; [reflexivity|].
    assert (E : firstn n (lastDigits 9 (fnsec g)) = lastDigits n (fnsec g / 10 ^ (9 - Z.of_nat n))).
    { replace 9%nat with (n + (9 - n))%nat by lia. rewrite firstn_lastDigits. rewrite Nat2Z.inj_sub by lia. reflexivity. }
    rewrite E. split; [apply lastDigits_length|]. split; [apply digits_Forall, lastDigits_digits|]. rewrite number_0, valueOf_lastDigits. apply Z.mod_small.
    split; [apply Z.div_pos; [lia|apply Z.pow_pos_nonneg; lia]|]. apply Z.div_lt_upper_bound; [apply Z.pow_pos_nonneg; lia|].
    rewrite <- Z.pow_add_r by lia. replace (9 - Z.of_nat n + Z.of_nat n) with 9 by lia. lia.
Qed.
Lemma fields_inRange : forall t, 0 <= fyear (fieldsOf t) <= 9999 -> inRange (fieldsOf t).
Proof.
  intros t Y. pose proof (fields_facts t) as F. cbv zeta in F. destruct F as (_ & _ & F1 & F2 & F3 & F4 & F5 & F6 & _). rewrite daysIn_month in F2 by exact F1.
  pose proof (month_days_bounds (isLeap (fyear (fieldsOf t))) (fmonth (fieldsOf t)) F1). repeat split; lia.
Qed.
Theorem C132_format : forall pattern cs e t, layoutOf pattern = (cs, e) -> known cs -> 0 <= fyear (fieldsOf t) <= 9999 ->
  exists xs, Forall2 (spelled (fieldsOf t)) (map snd cs) xs /\ Format pattern t = List.concat (map (fun c => fst c ++ snd c) (combine (map fst cs) xs)) ++ e.
Proof.
  intros pattern cs e t L K Y. unfold Format. rewrite L. clear L. pose proof (fields_inRange t Y) as R. induction cs as [|[p s] cs IH].
  - exists []. split; constructor.
  - destruct (IH (fun p' s' I => K p' s' (or_intror I))) as (xs & F & E). exists (formatStd (fieldsOf t) s :: xs). split.
    + constructor; [apply format_spelled; [exact R|exact (K p s (or_introl eq_refl))]|exact F].
    + rewrite formatChunks_cons, E. cbn [map combine List.concat fst snd]. rewrite <- !app_assoc. reflexivity.
Qed.

(** The name of an archive shows the time at the place of the clock *)
Theorem C132_name : forall join zone pattern cs e now, layoutOf pattern = (cs, e) -> known cs -> 0 <= fyear (fieldsOf (now + zone now)) <= 9999 ->
  exists xs, Forall2 (spelled (fieldsOf (now + zone now))) (map snd cs) xs /\
    NextFile join zone pattern now = join (List.concat (map (fun c => fst c ++ snd c) (combine (map fst cs) xs)) ++ e).
Proof.
  intros join zone pattern cs e now L K Y. destruct (C132_format pattern cs e (now + zone now) L K Y) as (xs & F & E). exists xs. split; [exact F|].
  unfold NextFile. now rewrite E.
Qed.

(** ** Which names are taken for archives, and of which time: exactly these.  Besides what Format writes there are hours of one digit and fractions of a second. *)
Theorem C132_names : forall pattern cs e name t, layoutOf pattern = (cs, e) ->
  (Parse pattern name = Some t <->
   exists f, reads e cs (mkFields 0 1 1 0 0 0 0) name f /\ 1 <= fday f <= daysIn (fmonth f) (fyear f) /\ t = timeOf f).
Proof.
  intros pattern cs e name t L. unfold Parse. rewrite L. split.
  - destruct (parseChunks cs e _ name) as [f|] eqn:P; cbn [obind]; [|discriminate]. destruct (Z.ltb_spec (fday f) 1) as [A|A]; [discriminate|].
    destruct (Z.ltb_spec (daysIn (fmonth f) (fyear f)) (fday f)) as [B|B]; [discriminate|]. cbn [orb]. intro H. injection H as <-.
    exists f. split; [apply reads_of_parse; exact P|]. split; [lia|reflexivity].
  - intros (f & R & V & ->). apply parse_of_reads in R. rewrite R. cbn [obind]. rewrite !(proj2 (Z.ltb_ge _ _)) by lia. reflexivity.
Qed.

(** ** The name that NextFile gives is found, with what it tells of the time at the place of the clock (not of the time in UTC). *)
Theorem C132_found_partial : forall pattern cs e t, layoutOf pattern = (cs, e) -> known cs -> misread cs e = false -> 0 <= fyear (fieldsOf t) <= 9999 ->
  Parse pattern (Format pattern t) = Some (timeOf (told cs (fieldsOf t))).
Proof. exact parse_format. Qed.
(** With everything down to the seconds, that is the time, rounded down. *)
Theorem C132_time_partial : forall pattern cs e t, layoutOf pattern = (cs, e) -> known cs -> misread cs e = false -> 0 <= fyear (fieldsOf t) <= 9999 ->
  chronological cs -> has SSecond cs = true ->
  let unit := 10 ^ (9 - Z.of_nat (fraction cs)) in Parse pattern (Format pattern t) = Some (t / unit * unit).
Proof. intros pattern cs e t L K M Y C S unit. rewrite (parse_format pattern cs e t L K M Y). f_equal. apply told_time; assumption. Qed.
(** Names are in the order of the times, if the zone does not change and nothing is left out before a finer part. *)
Theorem C132_order_partial : forall pattern cs e t1 t2, layoutOf pattern = (cs, e) -> known cs -> misread cs e = false ->
  0 <= fyear (fieldsOf t1) <= 9999 -> 0 <= fyear (fieldsOf t2) <= 9999 -> chronological cs -> t1 <= t2 ->
  exists a b, Parse pattern (Format pattern t1) = Some a /\ Parse pattern (Format pattern t2) = Some b /\ a <= b.
Proof.
  intros pattern cs e t1 t2 L K M Y1 Y2 C T. do 2 eexists. split; [apply (parse_format pattern cs e); assumption|]. split; [apply (parse_format pattern cs e); assumption|].
  apply told_mono; assumption.
Qed.
(** Two names are the same only if they tell the same. *)
Theorem C132_distinct : forall pattern cs e t1 t2, layoutOf pattern = (cs, e) -> known cs -> misread cs e = false ->
  0 <= fyear (fieldsOf t1) <= 9999 -> 0 <= fyear (fieldsOf t2) <= 9999 -> Format pattern t1 = Format pattern t2 -> told cs (fieldsOf t1) = told cs (fieldsOf t2).
Proof.
  intros pattern cs e t1 t2 L K M Y1 Y2 E. unfold Format in E. rewrite L in E.
  pose proof (parseChunks_format cs e (mkFields 0 1 1 0 0 0 0) _ (fields_inRange t1 Y1) K M) as P1.
  pose proof (parseChunks_format cs e (mkFields 0 1 1 0 0 0 0) _ (fields_inRange t2 Y2) K M) as P2.
  rewrite E, P2 in P1. rewrite !fold_told in P1 by exact K. symmetry. exact (f_equal (fun o => match o with Some f => f | None => told cs (fieldsOf t1) end) P1).
Qed.
(** And within the finest unit that the layout has, they are the same: the later archive replaces the earlier. *)
Theorem C132_collide_refuted : forall pattern cs e t1 t2, layoutOf pattern = (cs, e) -> known cs -> fraction cs = O ->
  t1 / 1000000000 = t2 / 1000000000 -> Format pattern t1 = Format pattern t2.
Proof.
  intros pattern cs e t1 t2 L K F E. unfold Format. rewrite L. clear L.
  assert (Q : exists n1 n2, fieldsOf t1 = mkFields (fyear (fieldsOf t2)) (fmonth (fieldsOf t2)) (fday (fieldsOf t2)) (fhour (fieldsOf t2)) (fmin (fieldsOf t2)) (fsec (fieldsOf t2)) n1 /\ n2 = n1).
  { assert (D : t1 / nsDay = t2 / nsDay).
    { change nsDay with (1000000000 * 86400). rewrite <- !Z.div_div by lia. rewrite E. reflexivity. }
    assert (T : t1 mod nsDay / second = t2 mod nsDay / second).
    { change nsDay with (1000000000 * 86400). change second with 1000000000. rewrite !Z.rem_mul_r by lia.
      rewrite (Z.mul_comm 1000000000 ((t1 / _) mod _)), (Z.mul_comm 1000000000 ((t2 / _) mod _)), !Z.div_add by lia.
      rewrite (Z.div_small (t1 mod 1000000000)), (Z.div_small (t2 mod 1000000000)) by (apply Z.mod_pos_bound; lia). rewrite E. reflexivity. }
    exists (t1 mod second). eexists. split; [|reflexivity]. unfold fieldsOf. rewrite D, T. destruct (dateOf (t2 / nsDay)) as [[y m] d]. reflexivity. }
  destruct Q as (n1 & _ & -> & _). generalize (fieldsOf t2). intro g. clear E. revert F. induction cs as [|[p s] cs IH]; intro F; [reflexivity|]. rewrite !formatChunks_cons.
  pose proof (K p s (or_introl eq_refl)) as Ks. cbn [fraction] in F. destruct (fraction cs) eqn:FC; [|discriminate F].
  rewrite (IH (fun p' s' I => K p' s' (or_intror I)) eq_refl). destruct s; try reflexivity. lia.
Qed.

(** ** ListFiles: the archives are these files, in the order of these times. *)
Theorem C132_listed : forall join pattern cs e sort statSize names l, layoutOf pattern = (cs, e) -> sorts sort ->
  ListTimed join pattern sort statSize (Some names) = Some l ->
  by_time l /\ (forall path t, (exists a, In a l /\ Path a = path /\ ArchivedAt a = t) <->
    exists name f, In name names /\ path = join name /\ reads e cs (mkFields 0 1 1 0 0 0 0) name f /\ 1 <= fday f <= daysIn (fmonth f) (fyear f) /\ t = timeOf f) /\
  Forall (fun a => statSize (Path a) = Some (Size a)) l.
Proof.
  intros join pattern cs e sort statSize names l L S H. unfold ListTimed, ListFiles in H. cbn [obind] in H. destruct (statAll_ok _ _ _ H) as (A & B & C).
  destruct (S (timedFilesOf join (Parse pattern) names)) as [P Q]. split; [eapply sorted_times; eassumption|]. split; [|exact C].
  assert (E : map (fun a => (Path a, ArchivedAt a)) l = map (fun a => (tfile a, ttime a)) (sort (timedFilesOf join (Parse pattern) names))).
  { clear - A B. revert A B. generalize (sort (timedFilesOf join (Parse pattern) names)). induction l as [|x l IH]; intros [|y r] A B; try discriminate A; [reflexivity|].
    cbn [map] in *. injection A as -> A. injection B as -> B. f_equal. apply IH; assumption. }
  intros path t. transitivity (In (path, t) (map (fun a => (Path a, ArchivedAt a)) l)).
  { rewrite in_map_iff. split; [intros (a & I & <- & <-); exists a; auto|intros (a & X & I); injection X as <- <-; exists a; auto]. }
  rewrite E, in_map_iff. transitivity (exists x, In x (timedFilesOf join (Parse pattern) names) /\ tfile x = path /\ ttime x = t).
  { split; intros (x & X & Y).
    - injection X as <- <-. exists x. split; [eapply Permutation_in; [exact P|exact Y]|auto].
    - destruct Y as [<- <-]. exists x. split; [reflexivity|]. eapply Permutation_in; [symmetry; exact P|exact X]. }
  unfold timedFilesOf. split.
  - intros (x & I & <- & <-). apply in_flat_map in I as (name & I & J). destruct (Parse pattern name) as [u|] eqn:N; [|contradiction J]. destruct J as [<-|[]].
    apply (C132_names pattern cs e name u L) in N as (f & R & V & ->). exists name, f. auto.
  - intros (name & f & I & -> & R & V & ->). exists (mkTimed (join name) (timeOf f)). split; [|auto]. apply in_flat_map. exists name. split; [exact I|].
    rewrite (proj2 (C132_names pattern cs e name (timeOf f) L)) by (exists f; auto). left. reflexivity.
Qed.
(** sort.Sort is asked for the order of the times. *)
Theorem C132_less : forall a b, Less a b = true <-> ttime a < ttime b.
Proof. intros a b. unfold Less. apply Z.ltb_lt. Qed.
(** With RetainByCount: no archive is deleted while one of an earlier time is kept, unless their names tell the same time; [off]: the zone, which does not change. *)
Theorem C132_retained_partial : forall join pattern cs e sort statSize names l Max, layoutOf pattern = (cs, e) -> known cs -> chronological cs ->
  sorts sort -> 0 <= Max -> lenZ names < 2 ^ 63 -> ListTimed join pattern sort statSize (Some names) = Some l ->
  exists purge kept, PurgeSet Max l [] = Some purge /\ Permutation l (purge ++ kept) /\ lenZ kept = Z.min Max (lenZ l) /\
    forall a b off now1 now2, In a purge -> In b kept ->
      ArchivedAt a = timeOf (told cs (fieldsOf (now1 + off))) -> ArchivedAt b = timeOf (told cs (fieldsOf (now2 + off))) ->
      now1 <= now2 \/ ArchivedAt a = ArchivedAt b.
Proof.
  intros join pattern cs e sort statSize names l Max L K C S X N H. destruct (RotationProps.C38_files join (Parse pattern) sort statSize names Max l S X N H) as (_ & _ & _ & purge & P & kept & Q1 & Q2 & Q3).
  exists purge, kept. split; [exact P|]. split; [exact Q1|]. split; [exact Q2|]. intros a b off now1 now2 A B TA TB. specialize (Q3 a b A B).
  destruct (Z.le_gt_cases now1 now2) as [T|T]; [left; exact T|]. right.
  pose proof (told_mono cs (now2 + off) (now1 + off) K C ltac:(lia)). lia.
Qed.

(** ** What is not so *)
(** A digit behind a dot, right behind the seconds, makes the names unreadable: such archives are never listed, and so never deleted. *)
Lemma skipPrefix_short : forall e v, (List.length v < List.length e)%nat -> skipPrefix v e = None.
Proof. induction e as [|c e IH]; intros [|d v] H; cbn [List.length skipPrefix] in *; try lia; try reflexivity. destruct (d =? c); [apply IH; lia|reflexivity]. Qed.
Lemma skipn_length_le : forall (A : Type) n (l : list A), (List.length (skipn n l) <= List.length l)%nat.
Proof. intros. rewrite skipn_length. lia. Qed.
Lemma parse_lost : forall cs p c e f g, inRange g -> known cs -> misread (cs ++ [(p, SSecond)]) [] = false -> isDigit c = true ->
  parseChunks (cs ++ [(p, SSecond)]) (46 :: c :: e) f (formatChunks g (cs ++ [(p, SSecond)]) (46 :: c :: e)) = None.
Proof.
  induction cs as [|[q s] cs IH]; intros p c e f g R K M D.
  - cbn [app parseChunks]. rewrite formatChunks_cons, skipPrefix_app. cbn [obind formatStd parseStd]. destruct R as (_ & _ & _ & _ & _ & R6 & _). rewrite getnum_two by lia. cbn [obind].
    rewrite (proj2 (Z.leb_gt _ _)) by lia. change (formatChunks g [] (46 :: c :: e)) with (46 :: c :: e). cbv iota beta. cbn [digitFirst nextIsFrac negb]. rewrite D. cbn [andb].
    destruct (nanoseconds (leadingDigits (c :: e))); [|reflexivity]. cbn [obind]. rewrite skipPrefix_short; [reflexivity|].
    cbn [leadingDigits]. rewrite D. cbn [List.length skipn]. pose proof (skipn_length_le _ (List.length (leadingDigits e)) e). lia.
  - cbn [app misread] in M. apply orb_false_elim in M as [M1 M2]. cbn [app parseChunks]. rewrite formatChunks_cons, skipPrefix_app. cbn [obind].
    assert (K' : known cs) by (intros p' s' I; exact (K p' s' (or_intror I))).
    rewrite parse_formatted; [cbn [obind]; apply IH; assumption|exact R|exact (K q s (or_introl eq_refl))|].
    intros -> NF. destruct cs as [|[q' s'] cs]; cbn [app] in *.
    + rewrite formatChunks_cons. destruct (formatStd_digit g SSecond R Logic.I) as (d & l & -> & Dd). cbn [app]. apply dot_digit_more; [exact M1|exact Dd].
    + pose proof (K' q' s' (or_introl eq_refl)) as Ks. rewrite formatChunks_cons.
      assert (X : match s' with SFrac _ | SOther => False | _ => True end) by (destruct s'; auto; discriminate NF).
      destruct (formatStd_digit g s' R X) as (d & l & -> & Dd). cbn [app]. apply dot_digit_more; [destruct s'; exact M1 || contradiction X|exact Dd].
Qed.
Theorem C132_lost_refuted : forall pattern cs p c e t, layoutOf pattern = (cs ++ [(p, SSecond)], 46 :: c :: e) -> known cs -> misread (cs ++ [(p, SSecond)]) [] = false -> digit c ->
  0 <= fyear (fieldsOf t) <= 9999 -> Parse pattern (Format pattern t) = None.
Proof.
  intros pattern cs p c e t L K M D Y. unfold Parse, Format. rewrite L. rewrite parse_lost; [reflexivity|apply fields_inRange; exact Y|exact K|exact M|apply isDigit_spec; exact D].
Qed.
(** A time of 2018 *)
Definition at2018 (month day hour minute : Z) : Z := timeOf (mkFields 2018 month day hour minute 7 0).
(** Names that NextFile never gives are taken for archives. *)
Theorem C132_foreign_refuted :
  Parse (bs "app-20060102150405") (bs "app-20180102030407.1") = Some (at2018 1 2 3 4 + 100000000) /\
  Parse (bs "app-2006-01-02T15-04-05") (bs "app-2018-01-02T3-04-07") = Some (at2018 1 2 3 4) /\
  (forall t, 0 <= fyear (fieldsOf t) <= 9999 -> Format (bs "app-20060102150405") t <> bs "app-20180102030407.1" /\ Format (bs "app-2006-01-02T15-04-05") t <> bs "app-2018-01-02T3-04-07").
Proof.
  split; [vm_compute; reflexivity|]. split; [vm_compute; reflexivity|]. intros t Y.
  assert (LF : forall cs e, known cs -> List.length (formatChunks (fieldsOf t) cs e) =
    (fold_right (fun c n => List.length (fst c) + match snd c with SYear => 4 | SFrac k => S k | SOther => 0 | _ => 2 end + n) (List.length e) cs)%nat).
  { intros cs e K. pose proof (fields_inRange t Y) as R. induction cs as [|[p s] cs IH]; [reflexivity|]. rewrite formatChunks_cons, !app_length, IH by (intros p' s' I; exact (K p' s' (or_intror I))).
    cbn [fold_right fst snd]. pose proof (format_spelled (fieldsOf t) s R (K p s (or_introl eq_refl))) as F.
    assert (List.length (formatStd (fieldsOf t) s) = match s with SYear => 4 | SFrac k => S k | SOther => 0 | _ => 2 end)%nat; [|lia].
    destruct s; cbn [spelled] in F; try (destruct F as (a & b & _ & _ & -> & _); reflexivity); [apply F| |contradiction F].
    destruct F as (ds & -> & <- & _). reflexivity. }
  split; intro E; apply (f_equal (@List.length Z)) in E; unfold Format in E.
  - replace (layoutOf (bs "app-20060102150405")) with ([(bs "app-", SYear); ([], SMonth); ([], SDay); ([], SHour); ([], SMinute); ([], SSecond)], [] : bytes) in E by (vm_compute; reflexivity).
    rewrite LF in E; [vm_compute in E; discriminate E|]. intros p s I. cbn [In] in I. repeat (destruct I as [I|I]; [injection I as <- <-; exact Logic.I|]). contradiction I.
  - replace (layoutOf (bs "app-2006-01-02T15-04-05")) with ([(bs "app-", SYear); (bs "-", SMonth); (bs "-", SDay); (bs "T", SHour); (bs "-", SMinute); (bs "-", SSecond)], [] : bytes) in E by (vm_compute; reflexivity).
    rewrite LF in E; [vm_compute in E; discriminate E|]. intros p s I. cbn [In] in I. repeat (destruct I as [I|I]; [injection I as <- <-; exact Logic.I|]). contradiction I.
Qed.
(** Without the year, the archive of New Year's Eve counts as newer than that of New Year: retention deletes the newest. *)
Theorem C132_no_year_refuted :
  ListTimed (fun n => n) (bs "app-01-02.log") (fold_right RotationProps.insert []) (fun _ => Some 9)
    (Some [Format (bs "app-01-02.log") (timeOf (mkFields 2018 12 31 23 59 59 0)); Format (bs "app-01-02.log") (timeOf (mkFields 2019 1 1 0 0 0 0))]) =
    Some [mkArchive (bs "app-01-01.log") (timeOf (mkFields 0 1 1 0 0 0 0)) 9; mkArchive (bs "app-12-31.log") (timeOf (mkFields 0 12 31 0 0 0 0)) 9] /\
  PurgeSet 1 [mkArchive (bs "app-01-01.log") (timeOf (mkFields 0 1 1 0 0 0 0)) 9; mkArchive (bs "app-12-31.log") (timeOf (mkFields 0 12 31 0 0 0 0)) 9] [] =
    Some [mkArchive (bs "app-01-01.log") (timeOf (mkFields 0 1 1 0 0 0 0)) 9].
Proof. split; vm_compute; reflexivity. Qed.
(** Where the clock is put back, an archive may be given a time before that of an earlier one; and the time of an archive is not that of UTC. *)
Definition hour : Z := 3600 * second.
Definition central (now : Z) : Z := if now <? timeOf (mkFields 2018 10 28 1 0 0 0) then 2 * hour else hour.
Theorem C132_zone_refuted : let pattern := bs "20060102150405.log" in
  let now1 := timeOf (mkFields 2018 10 28 0 50 0 0) in let now2 := timeOf (mkFields 2018 10 28 1 10 0 0) in
  now1 < now2 /\ NextFile (fun n => n) central pattern now1 = bs "20181028025000.log" /\ NextFile (fun n => n) central pattern now2 = bs "20181028021000.log" /\
  Parse pattern (NextFile (fun n => n) central pattern now1) = Some (now1 + 2 * hour) /\ Parse pattern (NextFile (fun n => n) central pattern now2) = Some (now2 + hour) /\
  now2 + hour < now1 + 2 * hour.
Proof. split; [vm_compute; reflexivity|]. repeat (split; [vm_compute; reflexivity|]). vm_compute. reflexivity. Qed.
(** Digits in the name of a program are taken for elements. *)
Theorem C132_digits_refuted : layoutOf (bs "web1-2006.log") = ([(bs "web", SOther); (bs "-", SYear)], bs ".log").
Proof. vm_compute. reflexivity. Qed.

(** What one would expect *)
Definition C132_full : Prop := forall join zone pattern cs e now, layoutOf pattern = (cs, e) -> known cs -> chronological cs -> has SSecond cs = true -> 0 <= fyear (fieldsOf (now + zone now)) <= 9999 ->
  (forall n, join n = n) -> exists t, Parse pattern (NextFile join zone pattern now) = Some t.
Theorem C132_full_refuted : ~ C132_full.
Proof.
  intro H. destruct (H (fun n => n) (fun _ => 0) (bs "20060102150405.7z") [([], SYear); ([], SMonth); ([], SDay); ([], SHour); ([], SMinute); ([], SSecond)] (bs ".7z") (at2018 1 2 3 4)) as (t & T).
  - vm_compute. reflexivity.
  - intros p s I. cbn [In] in I. repeat (destruct I as [I|I]; [injection I as <- <-; exact Logic.I|]). contradiction I.
  - repeat split; intros; reflexivity.
  - reflexivity.
  - vm_compute. split; discriminate.
  - reflexivity.
  - vm_compute in T. discriminate T.
Qed.

(** ** Examples *)
Definition ex_pattern : bytes := bs "test-2006-01-02T15-04-05.000.log".
Definition ex_chunks : list (bytes * std) := [(bs "test-", SYear); (bs "-", SMonth); (bs "-", SDay); (bs "T", SHour); (bs "-", SMinute); (bs "-", SSecond); ([], SFrac 3)].
Definition ex_time : Z := timeOf (mkFields 2020 2 29 23 59 7 123456789).
Lemma ex_layout : layoutOf ex_pattern = (ex_chunks, bs ".log").
Proof. vm_compute. reflexivity. Qed.
Lemma ex_known : known ex_chunks.
Proof. intros p s I. cbn [In ex_chunks] in I. repeat (destruct I as [I|I]; [injection I as <- <-; try exact Logic.I; lia|]). contradiction I. Qed.
Lemma ex_chronological : chronological ex_chunks.
Proof. repeat split; intros; reflexivity. Qed.
Example C132_calendar_example : dateOf 719162 = (1970, 1, 1) /\ dateOf (719162 + 18321) = (2020, 2, 29) /\ dateOf (-1) = (0, 12, 31) /\ fieldsOf ex_time = mkFields 2020 2 29 23 59 7 123456789.
Proof. repeat split; vm_compute; reflexivity. Qed.
Example C132_layout_example : layoutOf ex_pattern = (ex_chunks, bs ".log") /\ known ex_chunks /\ misread ex_chunks (bs ".log") = false.
Proof. split; [exact ex_layout|]. split; [exact ex_known|reflexivity]. Qed.
Example C132_format_example : Format ex_pattern ex_time = bs "test-2020-02-29T23-59-07.123.log".
Proof. vm_compute. reflexivity. Qed.
Example C132_found_example : Parse ex_pattern (Format ex_pattern ex_time) = Some (ex_time / 1000000 * 1000000).
Proof. apply (C132_time_partial ex_pattern ex_chunks (bs ".log")); [exact ex_layout|exact ex_known|reflexivity|vm_compute; split; discriminate|exact ex_chronological|reflexivity]. Qed.
Example C132_order_example : exists a b, Parse ex_pattern (Format ex_pattern ex_time) = Some a /\ Parse ex_pattern (Format ex_pattern (ex_time + 1000000)) = Some b /\ a <= b.
Proof.
  apply (C132_order_partial ex_pattern ex_chunks (bs ".log")); [exact ex_layout|exact ex_known|reflexivity|vm_compute; split; discriminate|vm_compute; split; discriminate|exact ex_chronological|lia].
Qed.
Example C132_names_example : Parse ex_pattern (bs "test-2020-02-29T23-59-07.123.log") <> None /\ Parse ex_pattern (bs "test-2019-02-29T23-59-07.123.log") = None /\
  Parse ex_pattern (bs "test-2020-02-29T23-59-07.12.log") = None /\ Parse ex_pattern (bs "test-2020-13-29T23-59-07.123.log") = None /\
  Parse ex_pattern (bs "test-2020-02-29T23-60-07.123.log") = None /\ Parse ex_pattern (bs "test-2020-02-29T24-59-07.123.log") = None /\
  Parse ex_pattern (bs "test-2020-02-29T23-59-60.123.log") = None /\ Parse ex_pattern (bs "test-2020-02-29T23-59-07.123.log.gz") = None /\
  Parse (bs "20060102150405") (bs "20200229235907.0000000001") = Some (timeOf (mkFields 2020 2 29 23 59 7 1)) /\
  Parse (bs "20060102150405") (bs "20200229235907.1000000000") = None.
Proof. split; [vm_compute; discriminate|]. repeat split; vm_compute; reflexivity. Qed.
Example C132_distinct_example : Format ex_pattern ex_time = Format ex_pattern (ex_time + 5000) /\ told ex_chunks (fieldsOf ex_time) = told ex_chunks (fieldsOf (ex_time + 5000)).
Proof.
  assert (E : Format ex_pattern ex_time = Format ex_pattern (ex_time + 5000)) by (vm_compute; reflexivity). split; [exact E|].
  apply (C132_distinct ex_pattern ex_chunks (bs ".log")); [exact ex_layout|exact ex_known|reflexivity|vm_compute; split; discriminate|vm_compute; split; discriminate|exact E].
Qed.
Example C132_collide_example : Format (bs "20060102150405") ex_time = Format (bs "20060102150405") (ex_time + 800000000).
Proof.
  apply (C132_collide_refuted _ [([], SYear); ([], SMonth); ([], SDay); ([], SHour); ([], SMinute); ([], SSecond)] []); [vm_compute; reflexivity| |reflexivity|vm_compute; reflexivity].
  intros p s I. cbn [In] in I. repeat (destruct I as [I|I]; [injection I as <- <-; exact Logic.I|]). contradiction I.
Qed.
Example C132_lost_example : Parse (bs "20060102150405.7z") (Format (bs "20060102150405.7z") ex_time) = None.
Proof.
  apply (C132_lost_refuted _ [([], SYear); ([], SMonth); ([], SDay); ([], SHour); ([], SMinute)] [] 55 (bs "z")); [vm_compute; reflexivity| |reflexivity|unfold digit; lia|vm_compute; split; discriminate].
  intros p s I. cbn [In] in I. repeat (destruct I as [I|I]; [injection I as <- <-; exact Logic.I|]). contradiction I.
Qed.
Example C132_listed_example :
  ListTimed (fun n => bs "old/" ++ n) ex_pattern (fold_right RotationProps.insert []) (fun p => Some (lenZ p))
    (Some [bs "test-2020-03-01T00-00-00.000.log"; bs "readme"; Format ex_pattern ex_time]) =
  Some [mkArchive (bs "old/test-2020-02-29T23-59-07.123.log") (ex_time / 1000000 * 1000000) 36; mkArchive (bs "old/test-2020-03-01T00-00-00.000.log") (timeOf (mkFields 2020 3 1 0 0 0 0)) 36] /\
  PurgeSet 1 [mkArchive (bs "old/test-2020-02-29T23-59-07.123.log") (ex_time / 1000000 * 1000000) 36; mkArchive (bs "old/test-2020-03-01T00-00-00.000.log") (timeOf (mkFields 2020 3 1 0 0 0 0)) 36] [] =
    Some [mkArchive (bs "old/test-2020-02-29T23-59-07.123.log") (ex_time / 1000000 * 1000000) 36].
Proof. split; vm_compute; reflexivity. Qed.

Print Assumptions C132_calendar.
Print Assumptions C132_parts.
Print Assumptions C132_layout.
Print Assumptions C132_others.
Print Assumptions C132_plain.
Example C132_name_example : NextFile (fun n => bs "/d/" ++ n) (fun _ => 3600 * 1000000000) ex_pattern ex_time = bs "/d/test-2020-03-01T00-59-07.123.log".
Proof. vm_compute. reflexivity. Qed.
Print Assumptions C132_name.
Print Assumptions C132_format.
Print Assumptions C132_names.
Print Assumptions C132_found_partial.
Print Assumptions C132_time_partial.
Print Assumptions C132_order_partial.
Print Assumptions C132_distinct.
Print Assumptions C132_collide_refuted.
Print Assumptions C132_listed.
Print Assumptions C132_less.
Print Assumptions C132_retained_partial.
Print Assumptions C132_lost_refuted.
Print Assumptions C132_foreign_refuted.
Print Assumptions C132_no_year_refuted.
Print Assumptions C132_zone_refuted.
Print Assumptions C132_digits_refuted.
Print Assumptions C132_full_refuted.
