(** C39-C42: rolling log files (countlog/output/lumberjack). *)
From Coq Require Import Permutation Sorted.
From Verif Require Import Base RotationModel RotationSpec RotationProofs LumberModel LumberSpec LumberProofs.

(** The directory, with the separator, and the name of the log in it *)
Section Properties.
  Variables (dir filename : bytes) (max : Z) (gzip : bytes -> bytes).
  Notation name := (dir ++ filename).
  Notation backup := (fun ts => dir ++ backupBase filename ts).
  Notation run := (run name max backup gzip).
  Notation Write := (Write name max backup).

  Lemma backup_name : forall t, backup t <> name.
  Proof. intros t E. apply app_inv_head in E. pose proof (backup_longer filename t). rewrite E in H. lia. Qed.

  (** * C39 *)

  (** Whatever fails: no file is longer than the maximum, except those that were so before and are unchanged, and those made by the mill *)
  Theorem C39_size : forall f l s o, 0 <= max < 2 ^ 62 -> good_fs f -> (forall i, lenZ (content f i) < 2 ^ 62) -> Forall (spares name) l -> run (newLogger f) l = (s, o) ->
    forall p i, find (links (lfs s)) p = Some i ->
      lenZ (content (lfs s) i) <= max \/ In p (milled o) \/ ((i < List.length (contents f))%nat /\ content (lfs s) i = content f i).
  Proof.
    intros f l s o M G Sm Sp R p i Fi.
    assert (S0 : sized name max f f [] []). { constructor; auto; intros; contradiction. }
    destruct (run_sized name max backup gzip backup_name ltac:(lia) f ltac:(lia) Sm l (newLogger f) s o [] [] S0 I Sp R) as (G' & [H1 H2 H3 H4 H5] & _).
    destruct (H2 i (H1 _ _ Fi)) as [A|[A|A]]; auto. right. left. exact (H4 _ _ Fi A).
  Qed.
  (** A record that is written is the end of the log, in one piece *)
  Theorem C39_record : forall f l s o p a a' fails s' o' n, 0 <= max < 2 ^ 62 -> good_fs f -> (forall i, lenZ (content f i) < 2 ^ 62) -> Forall (spares name) l ->
    run (newLogger f) l = (s, o) -> Write s p a a' fails = (s', o' ++ [OReturn n false]) ->
    n = List.length p /\ exists x, lookup (lfs s') name = Some (x ++ p) /\ lenZ (x ++ p) <= max.
  Proof.
    intros f l s o p a a' fails s' o' n M G Sm Sp R W.
    assert (S0 : sized name max f f [] []). { constructor; auto; intros; contradiction. }
    destruct (run_sized name max backup gzip backup_name ltac:(lia) f ltac:(lia) Sm l (newLogger f) s o [] [] S0 I Sp R) as (G' & H & Fl).
    destruct (Write_sized name max backup backup_name ltac:(lia) f ltac:(lia) Sm _ _ _ _ _ _ _ _ _ H Fl W) as (A & B & C & D).
    destruct (D n o' eq_refl) as (-> & i & x & Fi & Cx). split; [reflexivity|]. exists x. unfold lookup. rewrite Fi. cbn [option_map]. rewrite Cx. split; [reflexivity|].
    rewrite <- Cx. assert (Lf : lfile s' <> None).
    { intro K. unfold LumberModel.Write in W. destruct (max <? lenZ p).
      - apply pair_equal_spec in W. destruct W as [_ W]. change [OReturn 0 true] with ([] ++ [OReturn 0 true]) in W. apply app_inj_tail in W. destruct W; discriminate.
      - cbv zeta in W. destruct (match lfile s with None => _ | Some _ => _ end) as [[s1 e1] o1] in W. destruct e1.
        + apply pair_equal_spec in W. destruct W as [_ W]. apply app_inj_tail in W. destruct W; discriminate.
        + destruct (if max <? _ then _ else _) as [[s2 e2] o2] in W. destruct e2; [|destruct (lfile s2)].
          * apply pair_equal_spec in W. destruct W as [_ W]. rewrite app_assoc in W. apply app_inj_tail in W. destruct W; discriminate.
          * destruct (fileWrite _ _ _) in W. apply pair_equal_spec in W. destruct W as [<- _]. discriminate.
          * apply pair_equal_spec in W. destruct W as [_ W]. rewrite app_assoc in W. apply app_inj_tail in W. destruct W; discriminate. }
    unfold filled in B. destruct (lfile s') as [x'|]; [|congruence]. destruct B as (B1 & _ & B2 & B3). rewrite Fi in B1. injection B1 as ->. lia.
  Qed.
  (** A longer record is refused, and nothing changes *)
  Theorem C39_refused : forall s p a a' fails, max < lenZ p -> Write s p a a' fails = (s, [OReturn 0 true]).
  Proof. intros s p a a' fails H. unfold LumberModel.Write. rewrite (proj2 (Z.ltb_lt _ _) H). reflexivity. Qed.

  (** * C40 *)

  (** If os.Stat never fails for an existing log and the names of the backups are new: the backups in the order of their creation and
      then the log are the log that was there at first and all that was written; a backup that the mill has removed or compressed had
      its place there.  No other file changes. *)
  Theorem C40_files : forall f l s o, 0 <= max < 2 ^ 62 -> good_fs f -> Forall stats l -> Forall (spares name) l -> new_names name max backup gzip (newLogger f) l -> run (newLogger f) l = (s, o) ->
    exists gs, List.concat gs = match lookup f name with Some c => [c] | None => [] end ++ wrote o /\
      (forall k p, nth_error (backups o) k = Some p -> In p (milled o) \/ lookup (lfs s) p = option_map (@List.concat Z) (nth_error gs k)) /\
      (lookup (lfs s) name = None /\ List.length gs = List.length (backups o) \/
       exists gs' g, gs = gs' ++ [g] /\ List.length gs' = List.length (backups o) /\ lookup (lfs s) name = Some (List.concat g)) /\
      (forall p, p <> name -> ~ In p (backups o) -> ~ In p (milled o) -> find (links (lfs s)) p = find (links f) p) /\
      (forall i, (i < List.length (contents f))%nat -> find (links f) name <> Some i -> content (lfs s) i = content f i).
  Proof.
    intros f l s o M G St Sp Nn R. 
    assert (J0 : exists is gs, records name f f is gs [] [] /\ List.concat gs = match lookup f name with Some c => [c] | None => [] end).
    { unfold lookup. destruct (find (links f) name) as [i|] eqn:Fi; cbn [option_map].
      - exists [i], [[content f i]]. split; [|reflexivity]. constructor; auto.
        + constructor; [intros []|constructor].
        + constructor; [exact (G _ _ Fi)|constructor].
        + cbn. now rewrite app_nil_r.
        + left. exists [], i. auto.
        + intros k p K. destruct k; discriminate K.
        + intros j [<-|[]]. auto.
      - exists [], []. split; [|reflexivity]. constructor; [constructor|constructor|reflexivity|now right|intros k p K; destruct k; discriminate K|auto|auto|auto|intros j []]. }
    destruct J0 as (is0 & gs0 & J0 & C0).
    destruct (run_ok name max backup gzip backup_name ltac:(lia) f l (newLogger f) s o is0 gs0 [] [] J0 I St Sp Nn R) as (Op & is & gs & [H1 H2 H3 H4 H5 H6 H7 H8 H9] & C).
    cbn [app] in *. exists gs. split; [congruence|].
    assert (Ln : List.length gs = List.length is) by (apply (f_equal (@List.length bytes)) in H3; rewrite !map_length in H3; symmetry; exact H3).
    assert (Nth : forall k, option_map (content (lfs s)) (nth_error is k) = option_map (@List.concat Z) (nth_error gs k)).
    { intro k. rewrite <- !nth_error_map. exact (f_equal (fun z => nth_error z k) H3). }
    split; [|split; [|split]].
    - intros k p K. destruct (H5 k p K) as [_ [Q|Q]]; [right|now left]. unfold lookup. rewrite Q. apply Nth.
    - destruct H4 as [(pre & i & -> & Fi & L)|[Fi L]].
      + right. destruct (rev gs) as [|g r] eqn:Rv; apply (f_equal (@rev _)) in Rv; rewrite rev_involutive in Rv.
        { subst gs. rewrite app_length in Ln. cbn in Ln. lia. }
        cbn [rev] in Rv. exists (rev r), g. split; [exact Rv|]. assert (L' : List.length (rev r) = List.length pre) by (subst gs; rewrite !app_length in Ln; cbn in Ln; lia). split; [lia|].
        unfold lookup. rewrite Fi. specialize (Nth (List.length pre)). rewrite nth_error_app2, Nat.sub_diag in Nth by lia. cbn [nth_error option_map] in Nth. cbn [option_map]. rewrite Nth, Rv.
        rewrite nth_error_app2 by lia. replace (List.length pre - List.length (rev r))%nat with 0%nat by lia. reflexivity.
      + left. unfold lookup. rewrite Fi. split; [reflexivity|lia].
    - exact H7.
    - intros i Li Ni. apply H6; [exact Li|]. intro K. destruct (H9 i K) as [K'|K']; [congruence|lia].
  Qed.
  (** What Write returns is the number of bytes that it has written, of each record the first ones; all of them if it returns no error.
      Without errors all the records are written. *)
  Theorem C40_returns : forall f l s o, run (newLogger f) l = (s, o) -> List.length (returned o) = List.length (calls l) /\
    List.concat (wrote o) = List.concat (map (fun x => firstn (fst (snd x)) (fst x)) (combine (calls l) (returned o))) /\
    Forall (fun x => (fst (snd x) <= List.length (fst x))%nat /\ (snd (snd x) = false -> fst (snd x) = List.length (fst x))) (combine (calls l) (returned o)) /\
    (failures o = [] -> wrote o = calls l).
  Proof. intros f l s o R. exact (run_returns name max backup gzip l _ _ _ R). Qed.
End Properties.

(** MaxSize *)
Theorem C39_max : forall MaxSize, 0 < MaxSize < 2 ^ 42 -> 0 <= maxOf MaxSize < 2 ^ 62 /\ maxOf MaxSize = MaxSize * 1024 * 1024 /\
  maxOf 0 = 100 * 1024 * 1024.
Proof. intros M H. unfold maxOf, megabyte. replace (M =? 0) with false by (symmetry; apply Z.eqb_neq; lia). rewrite int64_id by lia. change (0 =? 0) with true. cbv iota. lia. Qed.
(** Without errors of the operating system every record up to the maximum is written as a whole, whatever happened before *)
Theorem C39_accepts : forall name max backup s p a a', lenZ p <= max -> fine a -> fine a' ->
  returned (snd (Write name max backup s p a a' None)) = [(List.length p, false)] /\ wrote (snd (Write name max backup s p a a' None)) = [p].
Proof.
  assert (N : forall name backup s a, fine a -> exists s' x o, openNew name backup s a = (s', false, o) /\ lfile s' = Some x /\ returned o = [] /\ wrote o = []).
  { intros name backup s a (F1 & F2 & F3 & F4 & F5 & F6 & F7 & F8 & F9). unfold openNew. rewrite F4, F5, F6, F7, F8, F9. unfold createTrunc.
    destruct (find (links (lfs s)) name); [|do 3 eexists; repeat split].
    match goal with |- context [mkFS (link ?l ?p ?i) ?c] => destruct (find (links (mkFS (link l p i) c)) name) end; cbv zeta iota beta;
      match goal with |- context [find ?l name] => destruct (find l name) end; do 3 eexists; repeat split. }
  assert (R : forall name backup s a, fine a -> exists s' x o, rotate name backup s a = (s', false, o) /\ lfile s' = Some x /\ returned o = [] /\ wrote o = []).
  { intros name backup s a F. unfold rotate, close. destruct (lfile s); [replace (aClose a) with false by (symmetry; apply F)|]; now apply N. }
  intros name max backup s p a a' L Fa Fa'. unfold Write. cbv zeta. replace (max <? lenZ p) with false by (symmetry; apply Z.ltb_ge; exact L).
  assert (O : exists s' x o, (match lfile s with None => openExistingOrNew name max backup s a (lenZ p) | Some _ => (s, false, []) end) = (s', false, o) /\ lfile s' = Some x /\ returned o = [] /\ wrote o = []).
  { destruct (lfile s) as [x|] eqn:E; [exists s, x, []; auto|]. unfold openExistingOrNew. replace (aStat a) with false by (symmetry; apply Fa).
    destruct (find (links (lfs s)) name); [|now apply N]. destruct (max <=? _); [now apply R|]. replace (aAppend a) with false by (symmetry; apply Fa). do 3 eexists. repeat split. }
  destruct O as (s1 & x1 & o1 & -> & X1 & A1 & B1).
  assert (Q : exists s' x o, (if max <? int64 (size s1 + lenZ p) then rotate name backup s1 a' else (s1, false, [])) = (s', false, o) /\ lfile s' = Some x /\ returned o = [] /\ wrote o = []).
  { destruct (max <? _); [now apply R|]. exists s1, x1, []. auto. }
  destruct Q as (s2 & x2 & o2 & -> & X2 & A2 & B2). rewrite X2. unfold fileWrite. cbv zeta. cbn [snd]. unfold returned, wrote in *. rewrite !flat_map_app, A1, A2, B1, B2. split; reflexivity.
Qed.
(** Without the bound: every record is refused if the maximum is 2^43 megabytes *)
Definition C39_full : Prop := forall MaxSize p name backup gzip f a a', 0 < MaxSize -> lenZ p <= MaxSize * 1024 * 1024 -> good_fs f ->
  aStatNew a = false -> aMkdir a = false -> aCreate a = false -> aStat a = false -> find (links f) name = None ->
  returned (snd (step name (maxOf MaxSize) backup gzip (newLogger f) (EWrite p a a' None))) = [(List.length p, false)].
Definition ok (t : bytes) : answers := mkAnswers false false false false false t false false false false.
Theorem C39_huge_refuted : maxOf (2 ^ 43) = - 2 ^ 63 /\ forall name backup s p a a' fails, Write name (maxOf (2 ^ 43)) backup s p a a' fails = (s, [OReturn 0 true]).
Proof.
  split; [vm_compute; reflexivity|]. intros name backup s p a a' fails. unfold Write. replace (maxOf (2 ^ 43)) with (- 2 ^ 63) by (vm_compute; reflexivity).
  rewrite (proj2 (Z.ltb_lt _ _)); [reflexivity|]. unfold lenZ. lia.
Qed.
Theorem C39_full_refuted : ~ C39_full.
Proof.
  intro H. specialize (H (2 ^ 43) (bs "x") (bs "log") (fun t => t) (fun t => t) (mkFS [] []) (ok (bs "t")) (ok (bs "t")) ltac:(lia) ltac:(vm_compute; discriminate)
    ltac:(intros p i K; discriminate K) eq_refl eq_refl eq_refl eq_refl eq_refl). vm_compute in H. discriminate H.
Qed.
(** A negative MaxSize refuses every record *)
Theorem C39_negative_refuted : forall MaxSize name backup s p a a' fails, - 2 ^ 43 <= MaxSize < 0 -> Write name (maxOf MaxSize) backup s p a a' fails = (s, [OReturn 0 true]).
Proof.
  intros M name backup s p a a' fails H. unfold Write, maxOf, megabyte. replace (M =? 0) with false by (symmetry; apply Z.eqb_neq; lia). rewrite int64_id by lia.
  rewrite (proj2 (Z.ltb_lt _ _)); [reflexivity|]. unfold lenZ. lia.
Qed.

Definition exdir := bs "/d/".
Definition exname := bs "app.log".
Definition exbackup (ts : bytes) : bytes := exdir ++ backupBase exname ts.
Notation exrun m := (run (exdir ++ exname) m exbackup (fun c => bs "gz:" ++ c)).
Definition emptyFS : FS := mkFS [] [].
Definition write (t : string) (p : string) : event := EWrite (bs p) (ok (bs t)) (ok (bs t)) None.
Fixpoint newb (name : bytes) (max : Z) (backup gzip : bytes -> bytes) (s : logger) (l : list event) : bool :=
  match l with
  | [] => true
  | e :: r => forallb (fun t => match find (links (lfs s)) (backup t) with None => true | Some _ => false end) (times e) && newb name max backup gzip (fst (step name max backup gzip s e)) r
  end.
Lemma newb_ok : forall name max backup gzip l s, newb name max backup gzip s l = true -> new_names name max backup gzip s l.
Proof.
  intros name max backup gzip. induction l as [|e l IH]; intros s H; [exact I|]. cbn [newb] in H. apply andb_prop in H. destruct H as [H1 H2]. split; [|auto].
  intros t K. rewrite forallb_forall in H1. specialize (H1 t K). destruct (find (links (lfs s)) (backup t)); [discriminate|reflexivity].
Qed.
(** Three rotations, by size, after a restart, and asked for; a partial write and a failed rename on the way; the mill compresses the
    first backup and removes the second *)
Definition ex_l : list event :=
  [write "1" "one "; write "2" "two "; EWrite (bs "three ") (ok (bs "3")) (ok (bs "3")) (Some 2%nat); write "4" "fourth ";
   EWrite (bs "lost ") (ok (bs "5")) (mkAnswers false false false false false (bs "5") true false false false) None;
   ERestart; write "6" "five "; ECompress (exdir ++ bs "app-3.log") Compressed; ERotate (ok (bs "7")); EClose false; write "8" "six "; ERemove (exdir ++ bs "app-6.log")].
Example C39_example : exists s o, exrun 10 (newLogger emptyFS) ex_l = (s, o) /\ Forall (spares (exdir ++ exname)) ex_l /\
  map (fun p => lookup (lfs s) (exdir ++ bs p)) ["app-3.log"; "app-3.log.gz"; "app-6.log"; "app-7.log"; "app.log"]%string =
    [None; Some (bs "gz:one two "); None; Some (bs "five "); Some (bs "six ")] /\
  returned o = [(4, false); (4, false); (2, true); (7, false); (0, true); (5, false); (4, false)]%nat.
Proof.
  do 2 eexists. split; [vm_compute; reflexivity|]. split; [|split; vm_compute; reflexivity]. repeat constructor; vm_compute; try discriminate; split; discriminate.
Qed.
Example C39_record_example : exists s o, Write (exdir ++ exname) 10 exbackup (newLogger emptyFS) (bs "one ") (ok []) (ok []) None = (s, o ++ [OReturn 4 false]).
Proof. eexists. exists [OWrote (bs "one ")]. vm_compute. reflexivity. Qed.
Example C39_max_example : 0 < 10 < 2 ^ 42 /\ maxOf 10 = 10485760 /\ maxOf 0 = 104857600 /\ - 2 ^ 43 <= -1 < 0.
Proof. repeat split; vm_compute; auto; discriminate. Qed.
Example C39_accepts_example : lenZ (bs "abc") <= 3 /\ fine (ok (bs "1")) /\
  snd (Write exname 3 exbackup (newLogger emptyFS) (bs "abc") (ok (bs "1")) (ok (bs "2")) None) = [OWrote (bs "abc"); OReturn 3 false].
Proof. split; [discriminate|]. split; [repeat split|vm_compute; reflexivity]. Qed.
Example C39_refused_example : 3 < lenZ (bs "four").
Proof. reflexivity. Qed.
Example C40_example : good_fs emptyFS /\ Forall stats ex_l /\ Forall (spares (exdir ++ exname)) ex_l /\ new_names (exdir ++ exname) 10 exbackup (fun c => bs "gz:" ++ c) (newLogger emptyFS) ex_l /\
  exists s o, exrun 10 (newLogger emptyFS) ex_l = (s, o) /\ backups o = [exdir ++ bs "app-3.log"; exdir ++ bs "app-6.log"; exdir ++ bs "app-7.log"] /\
    wrote o = map bs ["one "; "two "; "th"; "fourth "; "five "; "six "]%string /\ milled o = [exdir ++ bs "app-3.log"; exdir ++ bs "app-3.log.gz"; exdir ++ bs "app-6.log"] /\
    failures o = [2; 0]%nat.
Proof.
  split; [intros p i K; discriminate K|]. split; [repeat constructor|]. split; [repeat constructor; vm_compute; try discriminate; split; discriminate|].
  split; [apply newb_ok; vm_compute; reflexivity|]. do 2 eexists. split; [vm_compute; reflexivity|]. repeat split; vm_compute; reflexivity.
Qed.

(** Without the conditions on the names and on os.Stat: a record that was written is in some file, if nothing was removed *)
Definition C40_full : Prop := forall dir filename max gzip f l s o r, 0 <= max < 2 ^ 62 -> good_fs f -> Forall (spares (dir ++ filename)) l ->
  run (dir ++ filename) max (fun ts => dir ++ backupBase filename ts) gzip (newLogger f) l = (s, o) -> milled o = [] -> failures o = [] -> In r (calls l) ->
  exists p c x y, lookup (lfs s) p = Some c /\ c = x ++ r ++ y.
(** Two rotations within the resolution of the backup time: the second backup replaces the first *)
Definition ex_same : list event := [write "9" "first"; write "9" "second"; write "9" "third"].
Theorem C40_collision_refuted : exists s o, exrun 8 (newLogger emptyFS) ex_same = (s, o) /\ Forall stats ex_same /\ failures o = [] /\ milled o = [] /\
  backups o = [exdir ++ bs "app-9.log"; exdir ++ bs "app-9.log"] /\ wrote o = [bs "first"; bs "second"; bs "third"] /\
  forall p c, lookup (lfs s) p = Some c -> c = bs "second" \/ c = bs "third".
Proof.
  do 2 eexists. split; [vm_compute; reflexivity|]. split; [repeat constructor|]. split; [reflexivity|]. split; [reflexivity|]. split; [reflexivity|]. split; [reflexivity|].
  intros p c. unfold lookup. cbn [lfs links find option_map content contents nth].
  match goal with |- context [streq ?a p] => destruct (streq a p); cbn [option_map content contents nth] end; [intro K; injection K as <-; now right|].
  match goal with |- context [streq ?a p] => destruct (streq a p); cbn [option_map content contents nth] end; [intro K; injection K as <-; now left|discriminate].
Qed.
Theorem C40_full_refuted : ~ C40_full.
Proof.
  intro H. destruct C40_collision_refuted as (s & o & R & St & F & M & _ & _ & L).
  destruct (H exdir exname 8 (fun c => bs "gz:" ++ c) emptyFS ex_same s o (bs "first") ltac:(lia) ltac:(intros p i K; discriminate K) ltac:(repeat constructor) R M F (or_introl eq_refl)) as (p & c & x & y & Lk & E).
  assert (I : In 102 c) by (rewrite E; apply in_or_app; right; left; reflexivity). clear E. destruct (L p c Lk); subst c; repeat (destruct I as [I|I]; [discriminate I|]); destruct I.
Qed.
(** os.Stat fails with another error than "does not exist" in openNew: the log is taken for new, and truncated *)
Definition bad (t : bytes) : answers := mkAnswers false false false false true t false false false false.
Definition ex_stat : list event := [write "1" "first"; EWrite (bs "second") (ok (bs "2")) (bad (bs "2")) None].
Theorem C40_stat_refuted : exists s o, exrun 8 (newLogger emptyFS) ex_stat = (s, o) /\ new_names (exdir ++ exname) 8 exbackup (fun c => bs "gz:" ++ c) (newLogger emptyFS) ex_stat /\
  failures o = [] /\ milled o = [] /\ wrote o = [bs "first"; bs "second"] /\ links (lfs s) = [(exdir ++ exname, 0%nat)] /\ lookup (lfs s) (exdir ++ exname) = Some (bs "second").
Proof.
  do 2 eexists. split; [vm_compute; reflexivity|]. split; [apply newb_ok; vm_compute; reflexivity|]. repeat split; vm_compute; reflexivity.
Qed.

(** * C42 *)

(** The name of a backup gives back the time, as does that of the compressed file; and no other name gives a time *)
Theorem C42_roundtrip : forall parse filename ts t, parse ts = Some t -> let '(prefix, ext) := prefixAndExt filename in
  timeFromName parse (backupBase filename ts) prefix ext = Time t /\ timeFromName parse (backupBase filename ts ++ bs ".gz") prefix (ext ++ bs ".gz") = Time t.
Proof.
  intros parse filename ts t P. unfold prefixAndExt. rewrite !timeFromName_time. split; exists ts; (split; [|exact P]).
  - exact (backup_prefix filename ts).
  - exact (backup_gz filename ts).
Qed.
Theorem C42_inverse : forall parse filename n t, let '(prefix, ext) := prefixAndExt filename in
  (timeFromName parse n prefix ext = Time t -> exists ts, n = backupBase filename ts /\ parse ts = Some t) /\
  (timeFromName parse n prefix (ext ++ bs ".gz") = Time t -> exists ts, n = backupBase filename ts ++ bs ".gz" /\ parse ts = Some t).
Proof.
  intros parse filename n t. unfold prefixAndExt. rewrite !timeFromName_time. split; intros (ts & -> & P); exists ts; (split; [|exact P]); symmetry.
  - exact (backup_prefix filename ts).
  - exact (backup_gz filename ts).
Qed.
(** A name without the prefix or the extension is rejected *)
Theorem C42_rejects : forall parse n prefix ext, (forall r, n <> prefix ++ r) \/ (forall r, n <> r ++ ext) -> timeFromName parse n prefix ext = Rejected.
Proof.
  intros parse n prefix ext H. destruct (timeFromName parse n prefix ext) eqn:E; [|reflexivity|]; exfalso.
  - apply timeFromName_panics in E. destruct E as ([r E1] & [q E2] & _). destruct H as [H|H]; [destruct (H r E1)|destruct (H q E2)].
  - apply timeFromName_time in E. destruct E as (ts & -> & _). destruct H as [H|H]; [destruct (H (ts ++ ext) eq_refl)|destruct (H (prefix ++ ts) (app_assoc _ _ _))].
Qed.
(** The names of backups at different times differ, and are not that of the log *)
(** The name of a backup: a dash and the time before the extension, which begins at the last dot of the name. *)
Theorem C42_base : forall name r ts,
  (~ In 46 name -> backupBase name ts = name ++ bs "-" ++ ts) /\
  (~ In 46 r -> backupBase (name ++ bs "." ++ r) ts = name ++ bs "-" ++ ts ++ bs "." ++ r).
Proof.
  assert (N : forall s, ~ In 46 s -> Ext s = []).
  { induction s as [|c s IH]; intros H; [reflexivity|]. cbn [Ext]. rewrite IH by (intros G; apply H; now right).
    destruct (Z.eqb_spec c 46) as [->|_]; [elim H; now left|reflexivity]. }
  intros name r ts. split; intros H; unfold backupBase, stem.
  - rewrite (N _ H). cbn [List.length]. rewrite Nat.sub_0_r, firstn_all, !app_nil_r. reflexivity.
  - assert (E : Ext (name ++ bs "." ++ r) = bs "." ++ r).
    { induction name as [|c name IH]; cbn [List.app Ext].
      - change (bs "." ++ r) with (46 :: r). cbn [Ext]. rewrite (N _ H). reflexivity.
      - rewrite IH. reflexivity. }
    rewrite E, app_length, Nat.add_sub, firstn_app, Nat.sub_diag, firstn_all. cbn [firstn]. now rewrite app_nil_r.
Qed.
Example C42_base_example : ~ In 46 (bs "tar-gz") /\ backupBase (bs "a.log.tar-gz") (bs "2018") = bs "a.log-2018.tar-gz".
Proof. split; [intros H; vm_compute in H; lia|vm_compute; reflexivity]. Qed.
Theorem C42_names : forall filename ts ts', (backupBase filename ts = backupBase filename ts' -> ts = ts') /\ backupBase filename ts <> filename /\ backupBase filename ts ++ bs ".gz" <> filename.
Proof.
  intros filename ts ts'. split; [apply backup_inj|]. pose proof (backup_longer filename ts) as L. split; intro E; rewrite <- E in L at 1; rewrite ?app_length in L; cbn in L; lia.
Qed.
(** It panics exactly on the names in which the prefix and the extension overlap; never if there is no - in the extension of the log *)
Theorem C42_panics : forall parse n prefix ext,
  timeFromName parse n prefix ext = Panics <-> (exists r, n = prefix ++ r) /\ (exists r, n = r ++ ext) /\ lenZ n < lenZ prefix + lenZ ext.
Proof. exact timeFromName_panics. Qed.
Theorem C42_safe : forall parse filename n, ~ In 45 (Ext filename) -> let '(prefix, ext) := prefixAndExt filename in
  timeFromName parse n prefix ext <> Panics /\ timeFromName parse n prefix (ext ++ bs ".gz") <> Panics.
Proof.
  intros parse filename n H. unfold prefixAndExt. split; apply dash_no_panic; [exact H|]. intro K. apply in_app_or in K. destruct K as [K|K]; [auto|]. vm_compute in K. intuition discriminate.
Qed.
Definition C42_full : Prop := forall parse filename n, let '(prefix, ext) := prefixAndExt filename in timeFromName parse n prefix ext <> Panics.
Theorem C42_panic_refuted : forall parse, prefixAndExt (bs "x.b.b-c") = (bs "x.b-", bs ".b-c") /\ timeFromName parse (bs "x.b-c") (bs "x.b-") (bs ".b-c") = Panics.
Proof. intro parse. split; vm_compute; reflexivity. Qed.
Theorem C42_full_refuted : ~ C42_full.
Proof. intro H. specialize (H (fun _ => None) (bs "x.b.b-c") (bs "x.b-c")). rewrite (proj1 (C42_panic_refuted (fun _ => None))) in H. apply H. apply C42_panic_refuted. Qed.

(** Times of one digit, for the examples *)
Definition digit (ts : bytes) : option Z := match ts with [c] => if (48 <=? c) && (c <=? 57) then Some (c - 48) else None | _ => None end.
Example C42_example : digit (bs "7") = Some 7 /\ backupBase exname (bs "7") = bs "app-7.log" /\ prefixAndExt exname = (bs "app-", bs ".log") /\ ~ In 45 (Ext exname) /\
  timeFromName digit (bs "app-7.log") (bs "app-") (bs ".log") = Time 7 /\ timeFromName digit (bs "app-7.log.gz") (bs "app-") (bs ".log") = Rejected /\
  timeFromName digit (bs "app-7.log.gz") (bs "app-") (bs ".log.gz") = Time 7 /\ timeFromName digit (bs "app-x.log") (bs "app-") (bs ".log") = Rejected.
Proof. repeat split; try (vm_compute; reflexivity). vm_compute. intuition discriminate. Qed.
Example C42_rejects_example : forall r, bs "other.log" <> bs "app-" ++ r.
Proof. intros r K. discriminate K. Qed.

(** * C41 *)

(** The files considered are the backups in the directory, newest first *)
Theorem C41_backups : forall parse sort filename files old, sorts sort -> oldLogFiles parse sort filename files = Some old ->
  StronglySorted (fun x y => timestamp y <= timestamp x) old /\ Forall (fun x => is_backup parse filename (Name x) (timestamp x)) old /\
  (forall n, In n (map Name old) <-> In (n, false) files /\ exists t, is_backup parse filename n t) /\ (NoDup (map fst files) -> NoDup (map Name old)).
Proof.
  intros parse sort filename files old Sr E. unfold oldLogFiles in E. destruct (backupsIn parse filename files) as [l|] eqn:B; [|discriminate]. injection E as <-.
  destruct (backupsIn_ok _ _ _ _ B) as (A & C & D). destruct (Sr l) as [P S0]. split; [exact S0|]. split; [|split].
  - rewrite Forall_forall in *. intros x X. apply A. eapply Permutation_in; [exact P|exact X].
  - intro n. rewrite <- C. split; apply Permutation_in; [apply Permutation_map; exact P|apply Permutation_map, Permutation_sym; exact P].
  - intro N. eapply Permutation_NoDup; [apply Permutation_map, Permutation_sym; exact P|auto].
Qed.
(** Removed are exactly the backups beyond the newest MaxBackups and those older than MaxAge days; compressed exactly the others that are not *)
Theorem C41_choice : forall parse sort filename MaxBackups MaxAge Compress now files old remove compress,
  MaxAge <= 106751 -> oldLogFiles parse sort filename files = Some old -> millChoice parse sort filename MaxBackups MaxAge Compress now files = Some (remove, compress) ->
  forall x,
    (In x remove <-> exists k, nth_error old k = Some x /\ (surplus MaxBackups old k \/ aged MaxAge now x)) /\
    (In x compress <-> Compress = true /\ ~ compressed (Name x) /\ ~ aged MaxAge now x /\ exists k, nth_error old k = Some x /\ ~ surplus MaxBackups old k).
Proof.
  intros parse sort filename MaxBackups MaxAge Compress now files old remove compress Ma Eo E x. unfold millChoice in E.
  destruct ((MaxBackups =? 0) && (MaxAge =? 0) && negb Compress) eqn:Off.
  { injection E as <- <-. apply andb_prop in Off. destruct Off as [Off O3]. apply andb_prop in Off. destruct Off as [O1 O2]. apply Z.eqb_eq in O1, O2. apply negb_true_iff in O3. subst.
    split; (split; [intros []|]); [|intros [K _]; discriminate K]. intros (k & _ & [K|K]); [unfold surplus in K|unfold aged in K]; lia. }
  rewrite Eo in E. cbv beta iota zeta delta [obind] in E.
  set (r := if (0 <? MaxBackups) && (MaxBackups <? lenZ old) then _ else _) in E. destruct r as [rest rm] eqn:R. subst r.
  assert (Cnt : forall k, count k old [] = different (map (fun x => uncompressedName (Name x)) (firstn k old))) by (intro k; unfold count; now rewrite app_nil_r).
  assert (Sp : exists j, (j <= List.length old)%nat /\ rest = firstn j old /\ rm = skipn j old /\ (forall k, (k < List.length old)%nat -> surplus MaxBackups old k <-> (j <= k)%nat)).
  { destruct ((0 <? MaxBackups) && (MaxBackups <? lenZ old)) eqn:B.
    - apply andb_prop in B. destruct B as [B1 B2]. apply Z.ltb_lt in B1. destruct (byCount_split MaxBackups old [] (NoDup_nil _)) as (j & J1 & J2 & J3 & J4). rewrite J2 in R. injection R as <- <-.
      exists j. conj; auto. intros k Hk. unfold surplus. rewrite <- Cnt. destruct (Nat.lt_ge_cases k j) as [L|L].
      + specialize (J3 k L). split; lia.
      + specialize (J4 k ltac:(lia)). split; lia.
    - injection R as <- <-. exists (List.length old). rewrite firstn_all, skipn_all. conj; auto. intros k Hk. split; [|lia]. unfold surplus. intros [K1 K2]. exfalso.
      apply andb_false_iff in B. destruct B as [B|B]; apply Z.ltb_ge in B; [lia|]. 
      assert (L : different (map (fun x => uncompressedName (Name x)) (firstn (S k) old)) <= lenZ old).
      { unfold different, lenZ. apply inj_le. etransitivity; [apply NoDup_incl_length; [apply NoDup_nodup|intros z Z0; apply nodup_In in Z0; exact Z0]|]. rewrite map_length, firstn_length. lia. }
      lia. }
  destruct Sp as (j & J1 & -> & -> & J4). clear R.
  assert (InF : In x (firstn j old) <-> exists k, nth_error old k = Some x /\ ~ surplus MaxBackups old k).
  { split.
    - intro I. apply In_nth_error in I. destruct I as [k K]. assert (Lk : (k < List.length (firstn j old))%nat) by (apply nth_error_Some; congruence). rewrite firstn_length in Lk. exists k.
      split; [|rewrite J4 by lia; lia]. rewrite <- (firstn_skipn j old), nth_error_app1 by (rewrite firstn_length; lia). exact K.
    - intros (k & K & N). assert (Lk : (k < List.length old)%nat) by (apply nth_error_Some; congruence). rewrite J4 in N by exact Lk.
      rewrite <- (firstn_skipn j old), nth_error_app1 in K by (rewrite firstn_length; lia). eapply nth_error_In. exact K. }
  assert (InS : In x (skipn j old) <-> exists k, nth_error old k = Some x /\ surplus MaxBackups old k).
  { split.
    - intro I. apply In_nth_error in I. destruct I as [k K]. assert (Lk : (k < List.length (skipn j old))%nat) by (apply nth_error_Some; congruence). rewrite skipn_length in Lk. exists (j + k)%nat.
      split; [|rewrite J4 by lia; lia]. rewrite <- (firstn_skipn j old), nth_error_app2 by (rewrite firstn_length; lia). rewrite firstn_length. replace (j + k - _)%nat with k by lia. exact K.
    - intros (k & K & N). assert (Lk : (k < List.length old)%nat) by (apply nth_error_Some; congruence). rewrite J4 in N by exact Lk.
      rewrite <- (firstn_skipn j old), nth_error_app2 in K by (rewrite firstn_length; lia). eapply nth_error_In. exact K. }
  assert (Old : 0 < MaxAge -> (timestamp x <? cutoffOf MaxAge now) = true <-> aged MaxAge now x).
  { intro Pos. unfold cutoffOf, aged, hour24, second. rewrite (int64_id (24 * 3600 * _ * MaxAge)) by lia. rewrite int64_id by lia. rewrite Z.ltb_lt. lia. }
  assert (Gz : hasSuffix (Name x) (bs ".gz") = true <-> compressed (Name x)) by apply hasSuffix_iff.
  set (r := if 0 <? MaxAge then _ else _) in E. destruct r as [rest' rm'] eqn:R. subst r. injection E as <- <-.
  assert (Q : (In x rm' <-> In x (skipn j old) \/ (In x (firstn j old) /\ aged MaxAge now x)) /\ (In x rest' <-> In x (firstn j old) /\ ~ aged MaxAge now x)).
  { destruct (Z.ltb_spec 0 MaxAge) as [Pos|Pos]; injection R as <- <-.
    - rewrite in_app_iff, !filter_In, negb_true_iff. rewrite <- not_true_iff_false, !(Old Pos). tauto.
    - assert (N : ~ aged MaxAge now x) by (unfold aged; lia). tauto. }
  destruct Q as [Q1 Q2]. split.
  - rewrite Q1, InS, InF. split.
    + intros [(k & K & S0)|[(k & K & S0) A]]; exists k; auto.
    + intros (k & K & [S0|A]); [left; eauto|]. assert (Lk : (k < List.length old)%nat) by (apply nth_error_Some; congruence).
      destruct (le_dec j k) as [L|L]; [left; exists k; rewrite J4; auto|right]. split; [exists k; rewrite J4; auto|exact A].
  - destruct Compress.
    + rewrite filter_In, Q2, negb_true_iff, <- not_true_iff_false, Gz, InF. tauto.
    + split; [intros []|intros [K _]; discriminate K].
Qed.
(** Nothing else is touched: what is removed, compressed or created is a backup, not the log *)
Theorem C41_others : forall parse sort filename MaxBackups MaxAge Compress now files remove compress, sorts sort ->
  millChoice parse sort filename MaxBackups MaxAge Compress now files = Some (remove, compress) ->
  forall x, In x (remove ++ compress) -> In (Name x, false) files /\ is_backup parse filename (Name x) (timestamp x) /\ Name x <> filename /\ Name x ++ bs ".gz" <> filename.
Proof.
  intros parse sort filename MaxBackups MaxAge Compress now files remove compress Sr E x I.
  assert (Io : exists old, oldLogFiles parse sort filename files = Some old /\ In x old).
  { unfold millChoice in E. destruct ((MaxBackups =? 0) && (MaxAge =? 0) && negb Compress); [injection E as <- <-; destruct I|].
    destruct (oldLogFiles parse sort filename files) as [old|]; [|discriminate]. cbv beta iota zeta delta [obind] in E. exists old. split; [reflexivity|].
    set (r := if (0 <? MaxBackups) && (MaxBackups <? lenZ old) then _ else _) in E. destruct r as [rest rm] eqn:R. subst r.
    assert (A : forall y, In y rest \/ In y rm -> In y old).
    { destruct ((0 <? MaxBackups) && (MaxBackups <? lenZ old)); [|injection R as <- <-; cbn; tauto].
      destruct (byCount_split MaxBackups old [] (NoDup_nil _)) as (j & J1 & J2 & J3 & J4). rewrite J2 in R. injection R as <- <-. intros y Y. rewrite <- (firstn_skipn j old). apply in_or_app. exact Y. }
    set (r := if 0 <? MaxAge then _ else _) in E. destruct r as [rest' rm'] eqn:R'. subst r. injection E as <- <-. apply in_app_or in I. apply A.
    assert (B : (In x rest' -> In x rest) /\ (In x rm' -> In x rest \/ In x rm)).
    { destruct (0 <? MaxAge); injection R' as <- <-; [|tauto]. split; [intro K; apply filter_In in K; tauto|]. intro K. apply in_app_or in K. destruct K as [K|K]; [tauto|]. apply filter_In in K. tauto. }
    destruct I as [I|I]; [apply B in I; tauto|]. destruct Compress; [apply filter_In in I; left; apply B; tauto|destruct I]. }
  destruct Io as (old & Eo & Ix). destruct (C41_backups _ _ _ _ _ Sr Eo) as (_ & F & Nm & _). rewrite Forall_forall in F. pose proof (F x Ix) as Bx.
  destruct (proj1 (Nm (Name x)) (in_map Name _ _ Ix)) as [In1 _]. split; [exact In1|]. split; [exact Bx|].
  destruct Bx as (ts & _ & B). pose proof (backup_longer filename ts) as L.
  assert (Lx : (List.length filename < List.length (Name x))%nat) by (destruct B as [-> | ->]; rewrite ?app_length; lia).
  split; intro K; apply (f_equal (@List.length Z)) in K; rewrite ?app_length in K; lia.
Qed.
(** The mill spares the log, as C39 and C40 ask for *)
Theorem C41_spares : forall parse sort dir filename MaxBackups MaxAge Compress now files remove compress, sorts sort ->
  millChoice parse sort filename MaxBackups MaxAge Compress now files = Some (remove, compress) ->
  Forall (spares (dir ++ filename)) (map (fun x => ERemove (dir ++ Name x)) remove ++ flat_map (fun x => map (ECompress (dir ++ Name x)) [Compressed; FailedBefore; FailedEmpty; FailedRemoved]) compress).
Proof.
  intros parse sort dir filename MaxBackups MaxAge Compress now files remove compress Sr E. apply Forall_forall. intros e I. apply in_app_or in I.
  assert (H : forall x, In x (remove ++ compress) -> dir ++ Name x <> dir ++ filename /\ (dir ++ Name x) ++ bs ".gz" <> dir ++ filename).
  { intros x X. destruct (C41_others _ _ _ _ _ _ _ _ _ _ Sr E x X) as (_ & _ & A & B). rewrite <- app_assoc. split; intro K; apply app_inv_head in K; auto. }
  destruct I as [I|I].
  - apply in_map_iff in I. destruct I as (x & <- & X). apply H. apply in_or_app. now left.
  - apply in_flat_map in I. destruct I as (x & X & I). apply in_map_iff in I. destruct I as (c & <- & _). apply H. apply in_or_app. now right.
Qed.
(** It does not panic if there is no - in the extension of the log *)
Theorem C41_total : forall parse sort filename MaxBackups MaxAge Compress now files, ~ In 45 (Ext filename) ->
  exists remove compress, millChoice parse sort filename MaxBackups MaxAge Compress now files = Some (remove, compress).
Proof.
  intros parse sort filename MaxBackups MaxAge Compress now files No. unfold millChoice, oldLogFiles. destruct (_ && _ && _); [eexists; eexists; reflexivity|].
  destruct (backupsIn_total parse filename files No) as [l ->]. cbv beta iota delta [obind].
  match goal with |- context [if ?c then byCount ?a ?b ?d else ?e] => destruct (if c then byCount a b d else e) as [r1 r2] end.
  cbv zeta. match goal with |- context [if 0 <? MaxAge then ?a else ?b] => destruct (if 0 <? MaxAge then a else b) as [r3 r4] end. eexists. eexists. reflexivity.
Qed.
(** A file counts once with its compressed form *)
Theorem C41_once : forall b, uncompressedName (b ++ bs ".gz") = b /\ (~ compressed b -> uncompressedName b = b).
Proof.
  intro b. unfold uncompressedName. split.
  - rewrite (proj2 (hasSuffix_iff _ _)) by (eexists; reflexivity). rewrite app_length. cbn [List.length]. change (List.length (bs ".gz")) with 3%nat. rewrite Nat.add_sub, firstn_app, firstn_all, Nat.sub_diag.
    cbn [firstn]. apply app_nil_r.
  - intro N. destruct (hasSuffix b (bs ".gz")) eqn:H; [|reflexivity]. apply hasSuffix_iff in H. destruct (N H).
Qed.

(** Compression puts the compressed form in the place of the file, or fails and leaves the file; no other file changes *)
Theorem C41_compress : forall name max backup gzip s p c b s' o, good_fs (lfs s) -> lookup (lfs s) p = Some b -> step name max backup gzip s (ECompress p c) = (s', o) ->
  LumberModel.size s' = LumberModel.size s /\ LumberModel.lfile s' = LumberModel.lfile s /\
  (lookup (lfs s') (p ++ bs ".gz") = Some (gzip b) /\ lookup (lfs s') p = None /\ o = [OCompressed p (p ++ bs ".gz")] \/
   lookup (lfs s') p = Some b /\ compressed_in o = [] /\ c <> Compressed) /\
  forall q, q <> p -> q <> p ++ bs ".gz" -> lookup (lfs s') q = lookup (lfs s) q.
Proof.
  intros name max backup gzip s p c b s' o G L E. cbn [step] in E. unfold compress in E. unfold lookup in L. destruct (find (links (lfs s)) p) as [i|] eqn:F; [|discriminate L].
  cbn [option_map] in L. assert (B : content (lfs s) i = b) by congruence.
  assert (Np : p ++ bs ".gz" <> p) by (intro K; apply (f_equal (@List.length Z)) in K; rewrite app_length in K; cbn in K; lia).
  assert (Ol : forall f x, (forall k, (k < List.length (contents (lfs s)))%nat -> content f k = content (lfs s) k) -> find (links f) x = find (links (lfs s)) x -> lookup f x = lookup (lfs s) x).
  { intros f x C Q. unfold lookup. rewrite Q. destruct (find (links (lfs s)) x) as [k|] eqn:K; [|reflexivity]. cbn [option_map]. now rewrite C by exact (G _ _ K). }
  assert (Cn : forall c', content (replace (lfs s) (p ++ bs ".gz") c') (List.length (contents (lfs s))) = c').
  { intro c'. unfold content, replace. cbn [contents]. rewrite app_nth2, Nat.sub_diag by lia. reflexivity. }
  assert (Co : forall ls c' k, (k < List.length (contents (lfs s)))%nat -> content (mkFS ls (contents (replace (lfs s) (p ++ bs ".gz") c'))) k = content (lfs s) k).
  { intros ls c' k K. unfold replace. cbn [contents]. now apply content_old. }
  destruct c; apply pair_equal_spec in E as [<- <-]; cbn [lfs LumberModel.size LumberModel.lfile]; (split; [reflexivity|]); (split; [reflexivity|]).
  - split; [left|].
    + unfold lookup at 1 2. cbn [links replace]. rewrite !find_unlink, !find_link, (streq_neq p) by congruence. rewrite !streq_refl. cbn [option_map].
      split; [|split; reflexivity]. rewrite B. f_equal. exact (Cn (gzip b)).
    + intros q Q1 Q2. apply Ol; [apply Co|]. cbn [links replace]. now rewrite find_unlink, find_link, !streq_neq by congruence.
  - split; [right|reflexivity]. unfold lookup. rewrite F. cbn [option_map]. repeat split; [congruence|discriminate].
  - assert (Q : forall q, q <> p ++ bs ".gz" -> lookup (replace (lfs s) (p ++ bs ".gz") []) q = lookup (lfs s) q).
    { intros q Q. apply Ol; [apply (Co (links (replace (lfs s) (p ++ bs ".gz") [])))|]. cbn [links replace]. now rewrite find_link, streq_neq by congruence. }
    split; [right|intros q _; apply Q]. rewrite Q by congruence. unfold lookup. rewrite F. cbn [option_map]. repeat split; [congruence|discriminate].
  - assert (Q : forall q, q <> p ++ bs ".gz" -> lookup (mkFS (unlink (links (lfs s)) (p ++ bs ".gz")) (contents (lfs s))) q = lookup (lfs s) q).
    { intros q Q. apply Ol; [reflexivity|]. cbn [links]. now rewrite find_unlink, streq_neq by congruence. }
    split; [right|intros q _; apply Q]. rewrite Q by congruence. unfold lookup. rewrite F. cbn [option_map]. repeat split; [congruence|discriminate].
Qed.
Example C41_compress_example : let f := mkFS [(bs "l", 0%nat); (bs "b", 1%nat)] [bs "x"; bs "yy"] in
  good_fs f /\ lookup f (bs "b") = Some (bs "yy") /\
  let s' := fst (step (bs "l") 9 (fun t => t) (fun b => bs "Z" ++ b) (newLogger f) (ECompress (bs "b") Compressed)) in
  lookup (lfs s') (bs "b.gz") = Some (bs "Zyy") /\ lookup (lfs s') (bs "b") = None /\ lookup (lfs s') (bs "l") = Some (bs "x") /\
  lookup (lfs (fst (step (bs "l") 9 (fun t => t) (fun b => bs "Z" ++ b) (newLogger f) (ECompress (bs "b") FailedEmpty)))) (bs "b") = Some (bs "yy").
Proof.
  cbv zeta. split; [|repeat split; vm_compute; reflexivity]. intros p i F. cbn [links find] in F.
  destruct (streq _ p); [injection F as <-; cbn; lia|]. destruct (streq _ p); [injection F as <-; cbn; lia|discriminate F].
Qed.

(** Insertion sort, for the examples *)
Fixpoint insert (x : logInfo) (l : list logInfo) : list logInfo := match l with [] => [x] | y :: r => if timestamp y <=? timestamp x then x :: l else y :: insert x r end.
Definition isort (l : list logInfo) : list logInfo := fold_right insert [] l.
Lemma isort_sorts : sorts isort.
Proof.
  assert (P : forall x l, Permutation (insert x l) (x :: l)).
  { intros x l. induction l as [|y r IH]; [reflexivity|]. cbn [insert]. destruct (timestamp y <=? timestamp x); [reflexivity|]. etransitivity; [apply perm_skip; exact IH|apply perm_swap]. }
  assert (Q : forall x l, StronglySorted (fun x y => timestamp y <= timestamp x) l -> StronglySorted (fun x y => timestamp y <= timestamp x) (insert x l)).
  { intros x l H. induction H as [|y r H IH F]; [repeat constructor|]. cbn [insert]. destruct (Z.leb_spec (timestamp y) (timestamp x)) as [L|L].
    - constructor; [constructor; assumption|]. constructor; [exact L|]. rewrite Forall_forall in *. intros z Z0. specialize (F z Z0). lia.
    - constructor; [exact IH|]. rewrite Forall_forall in *. intros z Z0. apply (Permutation_in _ (P x r)) in Z0. destruct Z0 as [<-|Z0]; [lia|auto]. }
  intro l. induction l as [|x l [A B]]; [split; [reflexivity|constructor]|]. cbn [isort fold_right]. split; [|apply Q; exact B]. etransitivity; [apply P|]. apply perm_skip. exact A.
Qed.
(** Days of one digit *)
Definition day (ts : bytes) : option Z := option_map (Z.mul (24 * 60 * 60 * 10 ^ 9)) (digit ts).
Definition ex_files : list (bytes * bool) := map (fun x => (bs (fst x), snd x))
  [("app.log", false); ("app-3.log", false); ("app-8.log", false); ("app-7.log.gz", false); ("app-7.log", false); ("app-2.log.gz", false); ("app-5.log", true); ("other.log", false); ("app-6.log", false)]%string.
Example C41_example : exists old remove compress, oldLogFiles day isort exname ex_files = Some old /\ map Name old = map bs ["app-8.log"; "app-7.log.gz"; "app-7.log"; "app-6.log"; "app-3.log"; "app-2.log.gz"]%string /\
  millChoice day isort exname 3 1 true (Z.mul (24 * 60 * 60 * 10 ^ 9) 8) ex_files = Some (remove, compress) /\
  map Name remove = map bs ["app-3.log"; "app-2.log.gz"; "app-6.log"]%string /\ map Name compress = map bs ["app-8.log"; "app-7.log"]%string /\ NoDup (map fst ex_files).
Proof.
  do 3 eexists. split; [vm_compute; reflexivity|]. split; [vm_compute; reflexivity|]. split; [vm_compute; reflexivity|]. split; [vm_compute; reflexivity|]. split; [vm_compute; reflexivity|].
  vm_compute. repeat constructor; cbn; intuition discriminate.
Qed.
(** Without the bound of MaxAge: from 106752 days on every backup is removed, the newest too *)
Definition C41_full : Prop := forall parse sort filename MaxAge now files, sorts sort -> exists remove compress,
  millChoice parse sort filename 0 MaxAge false now files = Some (remove, compress) /\ forall x, In x remove -> aged MaxAge now x.
Theorem C41_age_refuted : exists remove compress, millChoice day isort exname 0 106752 false (Z.mul (24 * 60 * 60 * 10 ^ 9) 8) ex_files = Some (remove, compress) /\
  map Name remove = map bs ["app-8.log"; "app-7.log.gz"; "app-7.log"; "app-6.log"; "app-3.log"; "app-2.log.gz"]%string /\ Forall (fun x => ~ aged 106752 (Z.mul (24 * 60 * 60 * 10 ^ 9) 8) x) remove.
Proof.
  do 2 eexists. split; [vm_compute; reflexivity|]. split; [vm_compute; reflexivity|]. repeat constructor; unfold aged; cbn [timestamp]; lia.
Qed.
Theorem C41_full_refuted : ~ C41_full.
Proof.
  intro H. destruct C41_age_refuted as (remove & compress & E & N & F). destruct (H day isort exname 106752 (Z.mul (24 * 60 * 60 * 10 ^ 9) 8) ex_files isort_sorts) as (r & c & E' & A).
  rewrite E in E'. injection E' as <- <-. destruct remove as [|x r]; [discriminate N|]. inversion F as [|? ? F1 _]; subst. apply F1. apply A. now left.
Qed.
(** A file in which the prefix and the extension overlap makes the mill goroutine panic, and with it the program *)
Theorem C41_panic_refuted : forall parse sort MaxBackups MaxAge now, millChoice parse sort (bs "x.b.b-c") MaxBackups MaxAge true now [(bs "x.b-c", false)] = None.
Proof. intros. unfold millChoice. rewrite andb_false_r. vm_compute. reflexivity. Qed.

Print Assumptions C39_size.
Print Assumptions C39_record.
Print Assumptions C39_refused.
Print Assumptions C39_max.
Print Assumptions C39_accepts.
Print Assumptions C39_huge_refuted.
Print Assumptions C39_full_refuted.
Print Assumptions C39_negative_refuted.
Print Assumptions C40_files.
Print Assumptions C40_returns.
Print Assumptions C40_collision_refuted.
Print Assumptions C40_full_refuted.
Print Assumptions C40_stat_refuted.
Print Assumptions C42_roundtrip.
Print Assumptions C42_inverse.
Print Assumptions C42_rejects.
Print Assumptions C42_base.
Print Assumptions C42_names.
Print Assumptions C42_panics.
Print Assumptions C42_safe.
Print Assumptions C42_panic_refuted.
Print Assumptions C42_full_refuted.
Print Assumptions C41_backups.
Print Assumptions C41_choice.
Print Assumptions C41_others.
Print Assumptions C41_spares.
Print Assumptions C41_total.
Print Assumptions C41_once.
Print Assumptions C41_compress.
Print Assumptions C41_age_refuted.
Print Assumptions C41_full_refuted.
Print Assumptions C41_panic_refuted.
