(** C133: the times in the names of lumberjack's backups. *)
From Coq Require Import Permutation Sorted.
From Verif Require Import Base RotationModel RotationSpec RotationProofs LumberModel LumberSpec LumberProofs TimeNameModel TimeNameSpec TimeNameProofs BackupTimeModel BackupTimeSpec BackupTimeProofs.
From Verif Require LumberProps TimeNameProps.

(** * The default format *)
Definition defaultParts : list (bytes * std) :=
  [([], SYear); (bs "-", SMonth); (bs "-", SDay); (bs "T", SHour); (bs "-", SMinute); (bs "-", SSecond); ([], SFrac 3)].
Lemma default_layout : layoutOf (formatOf []) = (defaultParts, []).
Proof. vm_compute. reflexivity. Qed.
Lemma default_known : known defaultParts.
Proof. intros p s I. cbn [defaultParts In] in I. repeat (destruct I as [I|I]; [injection I as <- <-; cbn; auto; lia|]). contradiction I. Qed.
Lemma default_chronological : chronological defaultParts.
Proof. repeat split; intros; reflexivity. Qed.
Lemma same_millisecond : forall t1 t2, millisecond t1 = millisecond t2 -> Format (formatOf []) t1 = Format (formatOf []) t2.
Proof.
  intros t1 t2 E. unfold millisecond in E. unfold Format. rewrite default_layout.
  assert (D : t1 / 1000000000 = t2 / 1000000000) by (change 1000000000 with (1000000 * 1000); rewrite <- !Z.div_div by lia; now rewrite E).
  assert (D2 : t1 / nsDay = t2 / nsDay) by (change nsDay with (1000000000 * 86400); rewrite <- !Z.div_div by lia; now rewrite D).
  assert (T : t1 mod nsDay / second = t2 mod nsDay / second).
  { change nsDay with (1000000000 * 86400). change second with 1000000000. rewrite !Z.rem_mul_r by lia.
    rewrite (Z.mul_comm 1000000000 ((t1 / _) mod _)), (Z.mul_comm 1000000000 ((t2 / _) mod _)), !Z.div_add by lia.
    rewrite (Z.div_small (t1 mod 1000000000)), (Z.div_small (t2 mod 1000000000)) by (apply Z.mod_pos_bound; lia). now rewrite D. }
  assert (N : t1 mod second / 10 ^ Z.of_nat 6 = t2 mod second / 10 ^ Z.of_nat 6).
  { change (10 ^ Z.of_nat 6) with 1000000. change second with (1000000 * 1000). rewrite !Z.rem_mul_r by lia.
    rewrite (Z.mul_comm 1000000 ((t1 / _) mod _)), (Z.mul_comm 1000000 ((t2 / _) mod _)), !Z.div_add by lia.
    rewrite (Z.div_small (t1 mod 1000000)), (Z.div_small (t2 mod 1000000)) by (apply Z.mod_pos_bound; lia). now rewrite E. }
  unfold fieldsOf. rewrite D2, T. destruct (dateOf (t2 / nsDay)) as [[y m] d]. unfold formatChunks, defaultParts. cbn [flat_map fst snd formatStd fyear fmonth fday fhour fmin fsec fnsec].
  change 9%nat with (3 + 6)%nat. rewrite !firstn_lastDigits, N. reflexivity.
Qed.

Section Times.
  Variable zone : Z -> Z.
  Variable LocalTime : bool.
  Notation shown := (shown zone LocalTime).

  (** * C133 *)
  (** ** What is read from the name of a backup: the time that was shown, as far as the format tells it *)
  Theorem C133_read_partial : forall format cs e filename now, layoutOf (formatOf format) = (cs, e) -> known cs -> misread cs e = false ->
    0 <= fyear (fieldsOf (shown now)) <= 9999 ->
    let '(prefix, ext) := prefixAndExt filename in
    timeFromName (parseStamp format) (backupAt zone LocalTime format filename now) prefix ext = Time (timeOf (told cs (fieldsOf (shown now)))) /\
    timeFromName (parseStamp format) (backupAt zone LocalTime format filename now ++ bs ".gz") prefix (ext ++ bs ".gz") = Time (timeOf (told cs (fieldsOf (shown now)))).
  Proof.
    intros format cs e filename now L K M Y.
    assert (P : parseStamp format (stamp zone LocalTime format now) = Some (timeOf (told cs (fieldsOf (shown now))))) by (apply (parse_format _ cs e); assumption).
    exact (LumberProps.C42_roundtrip _ filename _ _ P).
  Qed.
  Lemma default_read : forall now, 0 <= fyear (fieldsOf (shown now)) <= 9999 ->
    parseStamp [] (stamp zone LocalTime [] now) = Some (millisecond (shown now) * 1000000).
  Proof.
    intros now Y. unfold parseStamp, stamp. rewrite (parse_format _ _ _ _ default_layout default_known eq_refl Y). f_equal.
    rewrite told_time; [reflexivity|exact default_known|exact default_chronological|reflexivity].
  Qed.
  (** With the default format: to the millisecond *)
  Theorem C133_read : forall filename now, 0 <= fyear (fieldsOf (shown now)) <= 9999 ->
    let '(prefix, ext) := prefixAndExt filename in
    timeFromName (parseStamp []) (backupAt zone LocalTime [] filename now) prefix ext = Time (millisecond (shown now) * 1000000) /\
    timeFromName (parseStamp []) (backupAt zone LocalTime [] filename now ++ bs ".gz") prefix (ext ++ bs ".gz") = Time (millisecond (shown now) * 1000000).
  Proof. intros filename now Y. exact (LumberProps.C42_roundtrip _ filename _ _ (default_read now Y)). Qed.
  (** Two backups have one name exactly if they are of the same millisecond *)
  Theorem C133_names : forall filename t1 t2, 0 <= fyear (fieldsOf (shown t1)) <= 9999 -> 0 <= fyear (fieldsOf (shown t2)) <= 9999 ->
    (backupAt zone LocalTime [] filename t1 = backupAt zone LocalTime [] filename t2 <-> millisecond (shown t1) = millisecond (shown t2)).
  Proof.
    intros filename t1 t2 Y1 Y2. split.
    - intro E. apply backup_inj in E. pose proof (default_read t1 Y1) as A. rewrite E, (default_read t2 Y2) in A. injection A. lia.
    - intro E. unfold backupAt, stamp. now rewrite (same_millisecond _ _ E).
  Qed.

  (** ** Age *)
  Lemma mill_old : forall parse sort filename MaxBackups MaxAge Compress now files r, (0 < MaxAge \/ 0 < MaxBackups) ->
    millChoice parse sort filename MaxBackups MaxAge Compress now files = Some r -> exists old, oldLogFiles parse sort filename files = Some old.
  Proof.
    intros parse sort filename MaxBackups MaxAge Compress now files r P H. unfold millChoice in H.
    destruct ((MaxBackups =? 0) && (MaxAge =? 0) && negb Compress) eqn:Q; [exfalso; lia|]. destruct (oldLogFiles parse sort filename files); [eauto|discriminate H].
  Qed.
  (** A backup is removed for its age exactly if the time that was shown when it was made, to the millisecond, is MaxAge days back *)
  Theorem C133_age : forall sort filename MaxAge Compress now files t remove compress, sorts sort -> 0 < MaxAge <= 106751 ->
    0 <= fyear (fieldsOf (shown t)) <= 9999 -> In (backupAt zone LocalTime [] filename t, false) files ->
    millAt [] sort filename 0 MaxAge Compress now files = Some (remove, compress) ->
    ((exists x, In x remove /\ Name x = backupAt zone LocalTime [] filename t) <-> older MaxAge (millisecond (shown t) * 1000000) now).
  Proof.
    intros sort filename MaxAge Compress now files t remove compress Srt A Y I H.
    destruct (mill_old _ _ _ _ _ _ _ _ _ (or_introl (proj1 A)) H) as (old & O).
    destruct (old_times _ _ _ _ _ Srt O) as (T1 & T2). pose proof (backup_time (parseStamp []) filename _ _ (default_read t Y)) as B.
    pose proof (LumberProps.C41_choice _ _ _ _ _ _ _ _ _ _ _ (proj2 A) O H) as C. split.
    - intros (x & X & N). apply (proj1 (C x)) in X. destruct X as (k & K & [P|P]); [unfold surplus in P; lia|]. apply nth_error_In in K.
      rewrite Forall_forall in T1. specialize (T1 x K). rewrite N in T1. unfold backupAt in T1. rewrite B in T1. injection T1 as T1.
      unfold aged in P. rewrite <- T1 in P. unfold older, day. change (10 ^ 9) with 1000000000 in P. lia.
    - intros Old. exists (mkInfo (millisecond (shown t) * 1000000) (backupAt zone LocalTime [] filename t)). split; [|reflexivity]. apply (proj1 (C _)).
      specialize (T2 _ _ I B). apply In_nth_error in T2. destruct T2 as (k & K). exists k. split; [exact K|]. right. unfold aged. cbn [timestamp]. split; [lia|].
      unfold older, day in Old. change (10 ^ 9) with 1000000000. lia.
  Qed.

  (** ** Number *)
  (** No file is removed that is newer, by its name, than one that is kept *)
  Theorem C133_newest : forall parse sort filename MaxBackups MaxAge Compress now files old remove compress x y, sorts sort -> MaxAge <= 106751 ->
    oldLogFiles parse sort filename files = Some old -> millChoice parse sort filename MaxBackups MaxAge Compress now files = Some (remove, compress) ->
    In x remove -> In y old -> ~ In y remove -> timestamp x <= timestamp y.
  Proof.
    intros parse sort filename MaxBackups MaxAge Compress now files old remove compress x y Srt A O H X Y N.
    pose proof (LumberProps.C41_choice _ _ _ _ _ _ _ _ _ _ _ A O H) as C. destruct (LumberProps.C41_backups _ _ _ _ _ Srt O) as (Sorted & _).
    apply (proj1 (C x)) in X. destruct X as (k & K & X). apply In_nth_error in Y. destruct Y as (j & J).
    assert (NS : ~ surplus MaxBackups old j) by (intro P; apply N, (proj1 (C y)); eauto).
    assert (NA : ~ aged MaxAge now y) by (intro P; apply N, (proj1 (C y)); eauto).
    destruct X as [X|X].
    - assert (L : (j < k)%nat).
      { destruct (Nat.lt_ge_cases j k) as [L|L]; [exact L|]. exfalso. apply NS. unfold surplus in *.
        assert (different (map (fun x => uncompressedName (Name x)) (firstn (S k) old)) <= different (map (fun x => uncompressedName (Name x)) (firstn (S j) old))).
        { apply different_set. intros q Q. apply in_map_iff in Q. destruct Q as (z & <- & Q). apply in_map_iff. exists z. split; [reflexivity|].
          replace (firstn (S k) old) with (firstn (S k) (firstn (S j) old)) in Q by (rewrite firstn_firstn; f_equal; lia).
          rewrite <- (firstn_skipn (S k) (firstn (S j) old)). apply in_or_app. now left. }
        lia. }
      clear - Sorted K J L. revert j k K J L. induction Sorted as [|z l Sl IH F]; intros j k K J L; [destruct k; discriminate K|].
      destruct k as [|k]; [lia|]. destruct j as [|j]; cbn [nth_error] in *.
      + injection J as ->. rewrite Forall_forall in F. apply F. now apply nth_error_In in K.
      + apply (IH j k); auto. lia.
    - unfold aged in *. lia.
  Qed.
  (** So no backup is removed while one is kept that is older by a millisecond or more, if the clock shows UTC or a fixed zone *)
  Theorem C133_order_partial : forall sort filename MaxBackups MaxAge Compress now files t1 t2 remove compress, sorts sort -> 0 <= MaxBackups -> 0 <= MaxAge <= 106751 ->
    0 <= fyear (fieldsOf (shown t1)) <= 9999 -> 0 <= fyear (fieldsOf (shown t2)) <= 9999 -> (LocalTime = false \/ zone t1 = zone t2) ->
    millAt [] sort filename MaxBackups MaxAge Compress now files = Some (remove, compress) ->
    In (backupAt zone LocalTime [] filename t1) (map Name remove) ->
    In (backupAt zone LocalTime [] filename t2, false) files -> ~ In (backupAt zone LocalTime [] filename t2) (map Name remove) ->
    t1 < t2 + 1000000.
  Proof.
    intros sort filename MaxBackups MaxAge Compress now files t1 t2 remove compress Srt B A Y1 Y2 Zn H R I K.
    assert (P : 0 < MaxAge \/ 0 < MaxBackups).
    { destruct (Z.eq_dec MaxAge 0) as [->|]; [|left; lia]. destruct (Z.eq_dec MaxBackups 0) as [->|]; [|right; lia]. exfalso.
      unfold millAt, millChoice in H. change ((0 =? 0) && (0 =? 0)) with true in H. destruct Compress; cbn [andb negb] in H; [|injection H as <- <-; destruct R].
      destruct (oldLogFiles _ _ _ _); cbn [obind] in H; [|discriminate H]. change (0 <? 0) with false in H. cbn [andb] in H. injection H as <- <-. destruct R. }
    destruct (mill_old _ _ _ _ _ _ _ _ _ P H) as (old & O). destruct (old_times _ _ _ _ _ Srt O) as (T1 & T2).
    apply in_map_iff in R. destruct R as (x & Nx & X). pose proof (proj1 (LumberProps.C41_choice _ _ _ _ _ _ _ _ _ _ _ (proj2 A) O H x)) as C.
    pose proof (proj1 C X) as (k & Kx & _). apply nth_error_In in Kx. rewrite Forall_forall in T1. specialize (T1 x Kx). rewrite Nx in T1.
    unfold backupAt in T1. rewrite (backup_time (parseStamp []) filename _ _ (default_read t1 Y1)) in T1. injection T1 as T1.
    specialize (T2 _ _ I (backup_time (parseStamp []) filename _ _ (default_read t2 Y2))).
    assert (L : timestamp x <= timestamp (mkInfo (millisecond (shown t2) * 1000000) (backupAt zone LocalTime [] filename t2))).
    { eapply C133_newest; try eassumption; [lia|]. intro J. apply K. change (backupAt zone LocalTime [] filename t2) with (Name (mkInfo (millisecond (shown t2) * 1000000) (backupAt zone LocalTime [] filename t2))).
      now apply in_map. }
    cbn [timestamp] in L. rewrite <- T1 in L. unfold millisecond, BackupTimeModel.shown in L.
    assert (M : forall d, (t1 + d) / 1000000 * 1000000 <= (t2 + d) / 1000000 * 1000000 -> t1 < t2 + 1000000).
    { intros d Q. pose proof (Z.div_mod (t1 + d) 1000000 ltac:(lia)). pose proof (Z.mod_pos_bound (t1 + d) 1000000 ltac:(lia)).
      pose proof (Z.div_mod (t2 + d) 1000000 ltac:(lia)). pose proof (Z.mod_pos_bound (t2 + d) 1000000 ltac:(lia)). lia. }
    destruct LocalTime.
    - destruct Zn as [Zn|Zn]; [discriminate Zn|]. rewrite <- Zn in L. exact (M _ L).
    - apply (M 0). now rewrite !Z.add_0_r.
  Qed.

  (** ** Nothing is lost *)
  Lemma stamp_digit : forall now, 0 <= fyear (fieldsOf (shown now)) <= 9999 -> exists ts d, stamp zone LocalTime [] now = ts ++ [d] /\ TimeNameSpec.digit d.
  Proof.
    intros now Y. unfold stamp, Format. rewrite default_layout. unfold formatChunks, defaultParts. cbn [flat_map fst snd formatStd]. rewrite !app_nil_r. cbn [app].
    set (f := fieldsOf (shown now)). change 9%nat with (3 + 6)%nat. rewrite firstn_lastDigits. cbn [lastDigits].
    match goal with |- context [46 :: (?a ++ [?b])] => set (x := a); set (y := b) end.
    exists (appendInt (fyear f) 4 ++ 45 :: appendInt (fmonth f) 2 ++ 45 :: appendInt (fday f) 2 ++ 84 :: appendInt (fhour f) 2 ++ 45 :: appendInt (fmin f) 2 ++ 45 :: appendInt (fsec f) 2 ++ 46 :: x), y.
    split; [repeat (rewrite <- !app_assoc; cbn [app]); reflexivity|]. unfold y, TimeNameSpec.digit. match goal with |- context [?a mod 10] => pose proof (Z.mod_pos_bound a 10 ltac:(lia)) end. lia.
  Qed.
  Lemma apart_split : forall (f : Z -> Z) rss1 r1 rss2 r2 rss3 a b, apart f (rss1 ++ r1 :: rss2 ++ r2 :: rss3) -> In a r1 -> In b r2 -> f a <> f b.
  Proof.
    intros f rss1. induction rss1 as [|x rss1 IH]; intros r1 rss2 r2 rss3 a b H A B; cbn [app apart] in H; destruct H as [H1 H2].
    - apply H1; [exact A|]. rewrite List.concat_app. cbn [List.concat]. apply in_or_app. right. apply in_or_app. now left.
    - eapply IH; eassumption.
  Qed.
  Lemma clocked_new : forall dir filename max gzip f l rss, Ext filename <> bs ".gz" ->
    Forall2 (fun e rs => times e = map (stamp zone LocalTime []) rs) l rss -> Forall (fun r => 0 <= fyear (fieldsOf (shown r)) <= 9999) (List.concat rss) ->
    apart (fun r => millisecond (shown r)) rss -> (forall r, In r (List.concat rss) -> find (links f) (dir ++ backupAt zone LocalTime [] filename r) = None) ->
    new_names (dir ++ filename) max (fun ts => dir ++ backupBase filename ts) gzip (newLogger f) l.
  Proof.
    intros dir filename max gzip f l rss X F Y A N.
    assert (G : forall e t, In e l -> In t (times e) -> exists r, In r (List.concat rss) /\ t = stamp zone LocalTime [] r).
    { clear - F. induction F as [|e rs l rss E F IH]; intros e' t I T; [destruct I|]. cbn [List.concat]. destruct I as [<-|I].
      - rewrite E in T. apply in_map_iff in T. destruct T as (r & <- & T). exists r. split; [apply in_or_app; now left|reflexivity].
      - destruct (IH _ _ I T) as (r & R & ->). exists r. split; [apply in_or_app; now right|reflexivity]. }
    rewrite Forall_forall in Y. apply new_names_from.
    - intros t. apply LumberProps.backup_name.
    - intros e t I T. destruct (G e t I T) as (r & R & ->). exact (N r R).
    - intros p c e t _ I T K. destruct (G e t I T) as (r & R & ->). unfold backupBase in K.
      destruct (Ext_gz filename p (dir ++ stem filename ++ bs "-" ++ stamp zone LocalTime [] r)) as [E|E]; [|rewrite E in K; rewrite app_nil_r in K|exact (X E)].
      { rewrite K. rewrite <- !app_assoc. reflexivity. }
      destruct (stamp_digit r (Y r R)) as (ts & d & E' & D). rewrite E' in K. apply (f_equal (@rev Z)) in K. rewrite !app_assoc, !rev_app_distr in K. injection K as K _.
      unfold TimeNameSpec.digit in D. lia.
    - intros l1 e1 l2 e2 l3 t1 t2 -> T1 T2. apply Forall2_app_inv_l in F. destruct F as (rss1 & q1 & _ & F & ->). inversion F as [|? r1 ? q2 E1 F']; subst.
      apply Forall2_app_inv_l in F'. destruct F' as (rss2 & q3 & _ & F' & ->). inversion F' as [|? r2 ? rss3 E2 _]; subst.
      rewrite E1 in T1. rewrite E2 in T2. apply in_map_iff in T1, T2. destruct T1 as (a & <- & I1), T2 as (b & <- & I2). intro K. apply app_inv_head in K.
      assert (Ya : In a (List.concat (rss1 ++ r1 :: rss2 ++ r2 :: rss3))) by (apply in_concat; exists r1; split; [apply in_or_app; right; now left|exact I1]).
      assert (Yb : In b (List.concat (rss1 ++ r1 :: rss2 ++ r2 :: rss3))) by (apply in_concat; exists r2; split; [apply in_or_app; right; right; apply in_or_app; right; now left|exact I2]).
      apply (apart_split _ _ _ _ _ _ _ _ A I1 I2). apply (proj1 (C133_names filename a b (Y a Ya) (Y b Yb))). exact K.
  Qed.
  (** If the calls that may rotate are of different milliseconds, as the clock shows them, and no file has the name of such a backup already: then the backups
      and the log hold what was there and all that was written, in this order, but for what the mill removed or compressed *)
  Theorem C133_files_partial : forall dir filename max gzip f l rss s o, Ext filename <> bs ".gz" ->
    Forall2 (fun e rs => times e = map (stamp zone LocalTime []) rs) l rss -> Forall (fun r => 0 <= fyear (fieldsOf (shown r)) <= 9999) (List.concat rss) ->
    apart (fun r => millisecond (shown r)) rss -> (forall r, In r (List.concat rss) -> find (links f) (dir ++ backupAt zone LocalTime [] filename r) = None) ->
    0 <= max < 2 ^ 62 -> good_fs f -> Forall stats l -> Forall (spares (dir ++ filename)) l ->
    run (dir ++ filename) max (fun ts => dir ++ backupBase filename ts) gzip (newLogger f) l = (s, o) ->
    exists gs, List.concat gs = match lookup f (dir ++ filename) with Some c => [c] | None => [] end ++ wrote o /\
      (forall k p, nth_error (backups o) k = Some p -> In p (milled o) \/ lookup (lfs s) p = option_map (@List.concat Z) (nth_error gs k)) /\
      (lookup (lfs s) (dir ++ filename) = None /\ List.length gs = List.length (backups o) \/
       exists gs' g, gs = gs' ++ [g] /\ List.length gs' = List.length (backups o) /\ lookup (lfs s) (dir ++ filename) = Some (List.concat g)).
  Proof.
    intros dir filename max gzip f l rss s o X F Y A N M G St Sp R.
    destruct (LumberProps.C40_files dir filename max gzip f l s o M G St Sp (clocked_new _ _ _ _ _ _ _ X F Y A N) R) as (gs & C1 & C2 & C3 & _). eauto.
  Qed.
End Times.

(** ** What goes wrong *)
Definition hours (n : Z) : Z := n * 3600 * 1000000000.
Definition at2018 (month day hour minute second ms : Z) : Z := timeOf (mkFields 2018 month day hour minute second (ms * 1000000)).
Definition log := bs "app.log".
(** LocalTime: the time in the name is that of the place, but it is read as one of UTC.  Ten hours west of Greenwich a backup is removed that is fifteen hours
    old, MaxAge being a day; ten hours east one is kept that is thirty-three hours old. *)
Theorem C133_local_refuted : let now := at2018 7 20 12 0 0 0 in
  let young := now - hours 15 in let old := now - hours 33 in
  (exists x, Name x = backupAt (fun _ => hours (-10)) true [] log young /\
    millAt [] LumberProps.isort log 0 1 false now [(backupAt (fun _ => hours (-10)) true [] log young, false)] = Some ([x], []) /\ ~ older 1 young (now + hours 8)) /\
  millAt [] LumberProps.isort log 0 1 false now [(backupAt (fun _ => hours 10) true [] log old, false)] = Some ([], []) /\ older 1 old now.
Proof.
  cbv zeta. split; [|split; vm_compute; reflexivity]. exists (mkInfo (at2018 7 19 11 0 0 0) (bs "app-2018-07-19T11-00-00.000.log")).
  split; [vm_compute; reflexivity|]. split; [vm_compute; reflexivity|vm_compute; discriminate].
Qed.
(** When the clock is put back, two backups an hour apart have one name, and the second replaces the first; and a newer backup is removed while an older one is
    kept.  [central]: one hour ahead of UTC in winter, two in summer. *)
Definition central := TimeNameProps.central.
Definition putBack : list event := map (fun x => EWrite (bs (fst x)) (LumberProps.ok (stamp central true [] (snd x))) (LumberProps.ok (stamp central true [] (snd x))) None)
  [("first", at2018 10 28 0 30 0 0); ("second", at2018 10 28 0 30 0 0); ("third", at2018 10 28 1 30 0 0)]%string.
Theorem C133_put_back_refuted :
  backupAt central true [] log (at2018 10 28 0 30 0 0) = backupAt central true [] log (at2018 10 28 1 30 0 0) /\
  (exists s o, run (bs "/d/app.log") 8 (fun ts => bs "/d/" ++ backupBase log ts) (fun c => c) (newLogger (mkFS [] [])) putBack = (s, o) /\ failures o = [] /\ milled o = [] /\
    wrote o = [bs "first"; bs "second"; bs "third"] /\ links (lfs s) = [(bs "/d/app.log", 2%nat); (bs "/d/app-2018-10-28T02-30-00.000.log", 1%nat)] /\
    lookup (lfs s) (bs "/d/app-2018-10-28T02-30-00.000.log") = Some (bs "second")) /\
  exists x, Name x = backupAt central true [] log (at2018 10 28 1 10 0 0) /\
    millAt [] LumberProps.isort log 1 0 false (at2018 10 28 2 0 0 0) [(backupAt central true [] log (at2018 10 28 0 50 0 0), false); (Name x, false)] = Some ([x], []).
Proof.
  split; [vm_compute; reflexivity|]. split; [do 2 eexists; split; [vm_compute; reflexivity|]; repeat (split; [vm_compute; reflexivity|]); vm_compute; reflexivity|].
  exists (mkInfo (at2018 10 28 2 10 0 0) (bs "app-2018-10-28T02-10-00.000.log")). split; vm_compute; reflexivity.
Qed.
(** A format without the time of day gives the backups of one day one name *)
Theorem C133_day_refuted : forall zone filename t1 t2, t1 / nsDay = t2 / nsDay ->
  backupAt zone false (bs "2006-01-02") filename t1 = backupAt zone false (bs "2006-01-02") filename t2.
Proof.
  intros zone filename t1 t2 E. unfold backupAt, stamp, shown, Format. f_equal.
  assert (L : layoutOf (formatOf (bs "2006-01-02")) = ([([], SYear); (bs "-", SMonth); (bs "-", SDay)], [])) by (vm_compute; reflexivity). rewrite L.
  unfold fieldsOf. rewrite E. destruct (dateOf (t2 / nsDay)) as [[y m] d]. reflexivity.
Qed.
(** A file that no logger has made is taken for a backup, and removed: one digit for the hour *)
Theorem C133_foreign_refuted : (exists x, Name x = bs "app-2018-01-02T3-04-07.000.log" /\
    millAt [] LumberProps.isort log 0 1 false (at2018 7 20 12 0 0 0) [(Name x, false)] = Some ([x], [])) /\
  forall zone local t, 0 <= fyear (fieldsOf (shown zone local t)) <= 9999 -> backupAt zone local [] log t <> bs "app-2018-01-02T3-04-07.000.log".
Proof.
  split; [exists (mkInfo (at2018 1 2 3 4 7 0) (bs "app-2018-01-02T3-04-07.000.log")); split; vm_compute; reflexivity|].
  intros zone local t Y E. change (bs "app-2018-01-02T3-04-07.000.log") with (backupBase log (bs "2018-01-02T3-04-07.000")) in E. apply backup_inj in E. apply (f_equal (@List.length Z)) in E.
  revert E. unfold stamp, Format. rewrite default_layout. pose proof (TimeNameProps.fields_inRange _ Y) as (R1 & R2 & R3 & R4 & R5 & R6 & R7). set (f := fieldsOf (shown zone local t)) in *.
  unfold formatChunks, defaultParts. cbn [flat_map fst snd formatStd]. rewrite app_nil_r. rewrite appendInt_digits by (change (10 ^ Z.of_nat 4) with 10000; lia). rewrite !two_digits by lia.
  repeat (rewrite ?app_length; cbn [List.length app]). rewrite lastDigits_length, firstn_length, lastDigits_length. vm_compute. discriminate.
Qed.

(** What one would expect: the age of a backup is the time since it was made *)
Definition C133_full : Prop := forall zone LocalTime sort filename MaxAge now files t remove compress, sorts sort -> 0 < MaxAge <= 106751 ->
  0 <= fyear (fieldsOf (shown zone LocalTime t)) <= 9999 -> In (backupAt zone LocalTime [] filename t, false) files ->
  millAt [] sort filename 0 MaxAge false now files = Some (remove, compress) ->
  (exists x, In x remove /\ Name x = backupAt zone LocalTime [] filename t) -> older MaxAge t (now + 1000000).
Theorem C133_utc : forall zone sort filename MaxAge Compress now files t remove compress, sorts sort -> 0 < MaxAge <= 106751 ->
  0 <= fyear (fieldsOf t) <= 9999 -> In (backupAt zone false [] filename t, false) files ->
  millAt [] sort filename 0 MaxAge Compress now files = Some (remove, compress) ->
  (older MaxAge t now -> exists x, In x remove /\ Name x = backupAt zone false [] filename t) /\
  ((exists x, In x remove /\ Name x = backupAt zone false [] filename t) -> older MaxAge t (now + 1000000)).
Proof.
  intros zone sort filename MaxAge Compress now files t remove compress S A Y I H.
  pose proof (C133_age zone false sort filename MaxAge Compress now files t remove compress S A Y I H) as C. unfold shown, older, millisecond in *.
  pose proof (Z.div_mod t 1000000 ltac:(lia)). pose proof (Z.mod_pos_bound t 1000000 ltac:(lia)). split.
  - intro O. apply C. lia.
  - intro O. apply C in O. lia.
Qed.
Theorem C133_full_refuted : ~ C133_full.
Proof.
  intro H. destruct C133_local_refuted as ((x & N & E & O) & _). apply O. set (now := at2018 7 20 12 0 0 0) in *.
  assert (K : older 1 (now - hours 15) (now + 1000000)).
  { refine (H (fun _ => hours (-10)) true LumberProps.isort log 1 now _ (now - hours 15) _ _ LumberProps.isort_sorts _ _ _ E _); [lia|vm_compute; split; discriminate|now left|].
    exists x. split; [now left|exact N]. }
  revert K. unfold older, hours. lia.
Qed.

(** ** Examples *)
Example C133_names_example : backupAt (fun _ => 0) false [] log (at2018 7 20 12 0 0 5) = bs "app-2018-07-20T12-00-00.005.log" /\
  0 <= fyear (fieldsOf (at2018 7 20 12 0 0 5)) <= 9999.
Proof. split; [vm_compute; reflexivity|vm_compute; split; discriminate]. Qed.
Example C133_read_example : exists cs e, layoutOf (formatOf (bs "20060102-1504")) = (cs, e) /\ misread cs e = false /\
  timeFromName (parseStamp (bs "20060102-1504")) (bs "app-20180720-1200.log") (bs "app-") (bs ".log") = Time (at2018 7 20 12 0 0 0).
Proof. do 2 eexists. split; [vm_compute; reflexivity|]. split; vm_compute; reflexivity. Qed.
Definition ex_now := at2018 7 20 12 0 0 0.
Definition ex_files : list (bytes * bool) := map (fun h => (backupAt (fun _ => 0) false [] log (ex_now - hours h), false)) [1; 20; 30; 40].
Example C133_age_example : exists remove compress, millAt [] LumberProps.isort log 0 1 false ex_now ex_files = Some (remove, compress) /\
  map Name remove = [bs "app-2018-07-19T06-00-00.000.log"; bs "app-2018-07-18T20-00-00.000.log"] /\ In (backupAt (fun _ => 0) false [] log (ex_now - hours 30), false) ex_files.
Proof. do 2 eexists. split; [vm_compute; reflexivity|]. split; [vm_compute; reflexivity|]. right. right. left. reflexivity. Qed.
Example C133_order_example : exists old remove compress, oldLogFiles (parseStamp []) LumberProps.isort log ex_files = Some old /\
  millAt [] LumberProps.isort log 3 0 false ex_now ex_files = Some (remove, compress) /\
  map Name remove = [backupAt (fun _ => 0) false [] log (ex_now - hours 40)] /\ List.length old = 4%nat.
Proof. do 3 eexists. split; [vm_compute; reflexivity|]. split; [vm_compute; reflexivity|]. split; vm_compute; reflexivity. Qed.
Definition ex_times : list (string * Z) := [("first", at2018 7 20 12 0 0 0); ("second", at2018 7 20 12 0 0 1); ("third", at2018 7 20 12 0 0 2)]%string.
Definition ex_events : list event := map (fun x => EWrite (bs (fst x)) (LumberProps.ok (stamp (fun _ => 0) false [] (snd x))) (LumberProps.ok (stamp (fun _ => 0) false [] (snd x))) None) ex_times.
Example C133_files_example : Ext log <> bs ".gz" /\
  Forall2 (fun e rs => times e = map (stamp (fun _ => 0) false []) rs) ex_events (map (fun x => [snd x; snd x]) ex_times) /\
  apart (fun r => millisecond (shown (fun _ => 0) false r)) (map (fun x => [snd x; snd x]) ex_times) /\
  exists s o, run (bs "/d/app.log") 8 (fun ts => bs "/d/" ++ backupBase log ts) (fun c => c) (newLogger (mkFS [] [])) ex_events = (s, o) /\
    backups o = [bs "/d/app-2018-07-20T12-00-00.001.log"; bs "/d/app-2018-07-20T12-00-00.002.log"].
Proof.
  split; [vm_compute; discriminate|]. split; [repeat constructor|]. split.
  { unfold ex_times. cbn [map snd apart List.concat app]. repeat split; intros a b I J; cbn [In] in I, J;
      repeat (destruct I as [<-|I]; [repeat (destruct J as [<-|J]; [vm_compute; discriminate|]); contradiction J|]); contradiction I. }
  do 2 eexists. split; vm_compute; reflexivity.
Qed.

Print Assumptions C133_read_partial.
Print Assumptions C133_read.
Print Assumptions C133_names.
Print Assumptions C133_age.
Print Assumptions C133_utc.
Print Assumptions C133_newest.
Print Assumptions C133_order_partial.
Print Assumptions C133_files_partial.
Print Assumptions C133_local_refuted.
Print Assumptions C133_put_back_refuted.
Print Assumptions C133_day_refuted.
Print Assumptions C133_foreign_refuted.
Print Assumptions C133_full_refuted.
