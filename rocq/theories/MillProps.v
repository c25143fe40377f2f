(** C118: the mill goroutine of the rolling logger (countlog/output/lumberjack). *)
From Coq Require Import Permutation Sorted.
From Verif Require Import Base RotationModel RotationSpec RotationProofs LumberModel LumberSpec LumberProofs LumberProps MillModel MillSpec MillProofs.

Section Props.
  Variables (dir filename : bytes) (max : Z) (gzip : bytes -> bytes).
  Variables (parse : bytes -> option Z) (sort : list logInfo -> list logInfo).
  Variables (MaxBackups MaxAge : Z) (Compress : bool).
  Notation name := (dir ++ filename).
  Notation backup := (fun ts => dir ++ backupBase filename ts).
  Notation mstep := (mstep dir filename max gzip parse sort MaxBackups MaxAge Compress).
  Notation mrun := (mrun dir filename max gzip parse sort MaxBackups MaxAge Compress).
  Notation choice := (millChoice parse sort filename MaxBackups MaxAge Compress).

  (** A call that the mill does not interrupt is the call of C39 and C40 *)
  Theorem C118_write : forall s p a a' fails s' o, crashed s = false -> spc s = Idle -> mrun s (CWrite p a a' fails :: repeat CStep 5) = (s', o) ->
    spc s' = Idle /\ crashed s' = false /\ (slog s', logs o) = Write name max backup (slog s) p a a' fails.
  Proof. exact (call_write dir filename max gzip parse sort MaxBackups MaxAge Compress). Qed.
  Theorem C118_rotate : forall s a s' o, crashed s = false -> spc s = Idle -> mrun s (CRotate a :: repeat CStep 5) = (s', o) ->
    spc s' = Idle /\ crashed s' = false /\ (slog s', logs o) = LumberModel.step name max backup gzip (slog s) (ERotate a).
  Proof. exact (call_rotate dir filename max gzip parse sort MaxBackups MaxAge Compress). Qed.
  (** A call never waits for the mill: after five steps of its own it has ended, whatever the mill did in between *)
  Theorem C118_ends : forall s l s' o, Forall no_call l -> (5 <= steps l)%nat -> mrun s l = (s', o) -> crashed s' = false -> spc s' = Idle.
  Proof.
    intros s l s' o F L E C. eapply call_ends; eauto. etransitivity; [|exact L]. destruct (spc s); cbn; lia.
  Qed.
  (** The first request starts the goroutine; there is never a second one, and it never ends *)
  Theorem C118_one : forall f format l s o, mrun (newMill f format) l = (s, o) ->
    (asked o = [] -> workers (smill s) = []) /\ (asked o <> [] -> exists w, workers (smill s) = [w] /\ w <> Ended).
  Proof.
    intros f format l s o E. destruct (run_started _ _ _ _ _ _ _ _ _ _ _ _ _ _ E) as ([_ Sh] & A & B). split; intro K.
    - specialize (A K). destruct Sh as [(_ & _ & W)|(On & _)]; [exact W|congruence].
    - specialize (B K). destruct Sh as [(On & _)|(_ & w & W & N & _)]; [congruence|eauto].
  Qed.
  (** Every call that succeeds has been preceded by a request in this process *)
  Theorem C118_asked : forall f format l s o, mrun (newMill f format) l = (s, o) -> succeeded o -> asked o <> [].
  Proof. intros f format l s o E S A. exact (run_asked _ _ _ _ _ _ _ _ _ _ _ _ _ _ E A S). Qed.
  (** When the mill rests, the directory has been read after every request *)
  Theorem C118_served : forall f format l s o, (MaxBackups <> 0 \/ MaxAge <> 0 \/ Compress = true) -> mrun (newMill f format) l = (s, o) -> at_rest mstep s ->
    forall o1 o2, o = o1 ++ Asked :: o2 -> lists o2 <> [].
  Proof.
    intros f format l s o On E R. assert (Off : off MaxBackups MaxAge Compress = false).
    { destruct (off MaxBackups MaxAge Compress) eqn:K; [|reflexivity]. apply off_spec in K. destruct K as (K1 & K2 & K3). destruct On as [On|[On|On]]; congruence. }
    destruct (run_served _ _ _ _ _ _ _ _ _ Off _ _ _ _ _ E) as [Sh A]. apply at_rest_iff in R; [|exact Sh]. destruct R as (_ & C & W). destruct (A C) as [S|[P|P]]; [exact S| |].
    - destruct W as [W|[_ K]]; [|congruence]. destruct Sh as [_ [(_ & K & _)|(_ & w & K & _)]]; congruence.
    - destruct W as [W|[W _]]; congruence.
  Qed.
  (** It is not read more often than it was asked for: requests that come while one is waiting are merged with it *)
  Theorem C118_merged : forall f format l s o, mrun (newMill f format) l = (s, o) -> (List.length (lists o) <= List.length (asked o))%nat.
  Proof. intros f format l s o E. apply (run_counts _ _ _ _ _ _ _ _ _ _ _ _ _ _ E). Qed.
  (** Left alone the mill comes to rest: there is a bound on what it can do, however the system answers *)
  Theorem C118_rests : forall f format l s o, sorts sort -> mrun (newMill f format) l = (s, o) ->
    exists n, forall l', Forall of_mill l' -> effective mstep s l' -> (List.length l' <= n)%nat.
  Proof.
    intros f format l s o Sr E. exists (bound s). intros l' F Ef. eapply effective_length; eauto. replace s with (fst (mrun (newMill f format) l)) by now rewrite E. apply run_shape.
  Qed.
  (** After a call that succeeded, when the mill rests and the system reported no error: there are at most MaxBackups backups, all of them
      are compressed if that is asked for, and none was too old when the directory was last read *)
  Theorem C118_clean : forall f format l s o, sorts sort -> MaxAge <= 106751 -> Forall healthy l -> mrun (newMill f format) l = (s, o) -> at_rest mstep s -> succeeded o ->
    (0 < MaxBackups -> forall ns, Forall (a_backup dir filename parse (lfs (slog s))) ns -> different (map uncompressedName ns) <= MaxBackups) /\
    (Compress = true -> forall n, a_backup dir filename parse (lfs (slog s)) n -> compressed n) /\
    (0 < MaxAge -> exists now, lastRead o = Some now /\ forall n, a_backup dir filename parse (lfs (slog s)) n -> young filename parse MaxAge now n).
  Proof.
    intros f format l s o Sr Ma H E R S. destruct (off MaxBackups MaxAge Compress) eqn:Off.
    { apply off_spec in Off. destruct Off as (-> & -> & ->). split; [lia|]. split; [discriminate|lia]. }
    destruct (run_clean dir filename max gzip parse sort MaxBackups MaxAge Compress Off Sr Ma f format l s o H E) as (Sh & _ & A).
    destruct (run_started _ _ _ _ _ _ _ _ _ _ _ _ _ _ E) as (_ & _ & B).
    pose proof (C118_asked _ _ _ _ _ E S) as As. apply at_rest_iff in R; [|exact Sh]. destruct R as (P & C & W).
    specialize (B As). specialize (A C B). rewrite P in A. cbn [dirty] in A. destruct Sh as [_ [(On & _)|(_ & w & Ww & _)]]; [congruence|].
    destruct W as [W|[W Pd]]; [congruence|]. destruct A as [K|[[]|[K|(now & L & [[_ Cv]|(rm & cs & K & _)])]]]; try congruence.
    destruct Cv as (base & C1 & C2 & _). assert (C3 : forall n, a_backup dir filename parse (lfs (slog s)) n -> In (uncompressedName n) base /\ (Compress = true -> compressed n) /\ young filename parse MaxAge now n).
    { intros n N. destruct (C2 n N) as [[]|(K1 & K2 & K3)]. split; [exact K1|]. split; [|exact K3]. intro Co. destruct (K2 Co) as [K|[]]. exact K. }
    split; [|split].
    - intros Po ns F. etransitivity; [apply different_set|apply C1; exact Po]. intros z Z0. apply in_map_iff in Z0. destruct Z0 as (n & <- & N). apply C3. rewrite Forall_forall in F. auto.
    - intros Co n N. apply C3; assumption.
    - intros _. exists now. split; [exact L|]. intros n N. apply C3; assumption.
  Qed.
  (** What is removed, compressed or overwritten was chosen (see C41) when the directory was read; it is not the log *)
  Theorem C118_only : forall f format l s o, mrun (newMill f format) l = (s, o) -> forall p, In p (milled (logs o)) ->
    (exists files now remove compress x, In (Listed files now) o /\ choice now files = Some (remove, compress) /\
      (In x remove /\ p = dir ++ Name x \/ In x compress /\ (p = dir ++ Name x \/ p = dir ++ Name x ++ bs ".gz"))) /\ (sorts sort -> p <> name).
  Proof.
    intros f format l s o E p P. pose proof (run_justified _ _ _ _ _ _ _ _ _ _ _ _ _ _ E p P) as J. split; [exact J|]. intro Sr. destruct J as (files & now & rm & cs & x & _ & Ch & X).
    assert (I : In x (rm ++ cs)) by (apply in_or_app; tauto). destruct (C41_others _ _ _ _ _ _ _ _ _ _ Sr Ch x I) as (_ & _ & N1 & N2).
    destruct X as [[_ ->]|[_ [-> | ->]]]; intro K; apply app_inv_head in K; auto.
  Qed.
  (** The mill does not panic if there is no - in the extension of the log *)
  Theorem C118_alive : forall f format l s o, ~ In 45 (Ext filename) -> mrun (newMill f format) l = (s, o) -> crashed s = false.
  Proof.
    intros f format l s o N E. replace s with (fst (mrun (newMill f format) l)) by now rewrite E. apply run_alive; [exact N| |reflexivity]. exact (run_shape dir filename max gzip parse sort MaxBackups MaxAge Compress f format []).
  Qed.
  (** There is no race for BackupTimeFormat if it is set from the beginning *)
  Theorem C118_no_race : forall f l s o, mrun (newMill f true) l = (s, o) -> ~ race (usesC dir filename max) (usesM dir filename MaxBackups MaxAge Compress) s.
  Proof.
    intros f l s o E. apply no_race. replace s with (fst (mrun (newMill f true) l)) by now rewrite E.
    apply (mrun_ind dir filename max gzip parse sort MaxBackups MaxAge Compress (fun s _ => noFormat s = false)); [reflexivity|]. intros s1 o1 e N. now apply step_format.
  Qed.
  (** The mill uses BackupTimeFormat when it reads a directory with a file whose name has the dash after the stem and the extension of the log (or that and .gz); it
      writes it then if it is not set *)
  Theorem C118_reads : forall s k b, usesM dir filename MaxBackups MaxAge Compress s k = Some b <->
    nth_error (workers (smill s)) k = Some Awake /\ (MaxBackups <> 0 \/ MaxAge <> 0 \/ Compress = true) /\ b = noFormat s /\
    exists n, find (links (lfs (slog s))) (dir ++ n) <> None /\ ~ In 47 n /\ (exists r, n = stem filename ++ bs "-" ++ r) /\ ((exists r, n = r ++ Ext filename) \/ exists r, n = r ++ Ext filename ++ bs ".gz").
  Proof.
    assert (Nm : forall n, named filename n = true <-> (exists r, n = stem filename ++ bs "-" ++ r) /\ ((exists r, n = r ++ Ext filename) \/ exists r, n = r ++ Ext filename ++ bs ".gz")).
    { intros n. unfold named, prefixAndExt. rewrite andb_true_iff, orb_true_iff, !hasSuffix_iff, hasPrefix_iff. split; intros [(r & R) H]; (split; [exists r; rewrite R; now rewrite <- ?app_assoc|exact H]). }
    assert (Rd : forall f n d, In (n, d) (readDir dir f []) <-> find (links f) (dir ++ n) <> None /\ ~ In 47 n /\ d = false).
    { intros f n d. split.
      - unfold readDir. cbn [map]. rewrite app_nil_r. intros H. apply in_map_iff in H. destruct H as (n' & E & H). injection E as <- <-. apply nodup_In, in_flat_map in H. destruct H as ([q i] & Q & H). cbn [fst] in H. unfold inDir in H.
        destruct (hasPrefix q dir) eqn:P; [|destruct H]. apply hasPrefix_iff in P. destruct P as (r & ->). rewrite skipn_app, skipn_all, Nat.sub_diag in H. cbn [skipn app] in H.
        destruct (existsb (Z.eqb 47) r) eqn:X; [destruct H|]. destruct H as [->|[]]. split; [|split; [|reflexivity]].
        + clear X. induction (links f) as [|[q j] l IH]; [destruct Q|]. cbn [find]. destruct (streq q (dir ++ n')) eqn:S; [discriminate|]. destruct Q as [Q|Q]; [|exact (IH Q)].
          injection Q as -> ->. rewrite streq_refl in S. discriminate S.
        + intros I. assert (K : existsb (Z.eqb 47) n' = true) by (apply existsb_exists; exists 47; split; [exact I|reflexivity]). congruence.
      - intros (F & S & ->). now apply readDir_In. }
    intros s k b. unfold usesM. destruct (nth_error (workers (smill s)) k) as [w|]; [|split; [discriminate|intros (H & _); discriminate H]].
    destruct w; try (split; [discriminate|intros (H & _); discriminate H]).
    assert (On : ((MaxBackups =? 0) && (MaxAge =? 0) && negb Compress) = false <-> (MaxBackups <> 0 \/ MaxAge <> 0 \/ Compress = true)).
    { destruct Compress; cbn [negb]; rewrite ?andb_true_r, ?andb_false_r, ?andb_false_iff, ?Z.eqb_neq; intuition discriminate. }
    assert (Ex : existsb (fun x => named filename (fst x)) (readDir dir (lfs (slog s)) []) = true <->
      exists n, find (links (lfs (slog s))) (dir ++ n) <> None /\ ~ In 47 n /\ (exists r, n = stem filename ++ bs "-" ++ r) /\ ((exists r, n = r ++ Ext filename) \/ exists r, n = r ++ Ext filename ++ bs ".gz")).
    { rewrite existsb_exists. split.
      - intros ([n d] & I & N). apply Rd in I. apply Nm in N. cbn [fst] in N. exists n. tauto.
      - intros (n & F & S & N). exists (n, false). split; [apply Rd; tauto|apply Nm; exact N]. }
    rewrite <- On, <- Ex. destruct ((MaxBackups =? 0) && (MaxAge =? 0) && negb Compress); cbn [orb]; [split; [discriminate|intros (_ & H & _); discriminate H]|].
    destruct (existsb _ _); cbn [negb]; split; try discriminate.
    - intros H. injection H as <-. auto.
    - intros (_ & _ & -> & _). reflexivity.
    - intros (_ & _ & _ & H). discriminate H.
  Qed.
  (** A step of a call sets BackupTimeFormat exactly when it makes a backup, if renaming does not fail *)
  Theorem C118_format : forall s s' o a, answersOf (spc s) = Some a -> aRename a = false -> crashed s = false -> noFormat s = true ->
    mstep s CStep = (s', o) -> (noFormat s' = false <-> exists p, In (Log (OBackup p)) o).
  Proof. intros. eapply format_set; eauto. Qed.
End Props.

(** * Examples *)

Notation exmill MaxBackups MaxAge Compress := (mrun exdir exname 8 (fun c => bs "gz:" ++ c) day isort MaxBackups MaxAge Compress).
Notation exmstep MaxBackups MaxAge Compress := (mstep exdir exname 8 (fun c => bs "gz:" ++ c) day isort MaxBackups MaxAge Compress).
Definition files (s : st) : list (bytes * bytes) := flat_map (fun x => match lookup (lfs (slog s)) (fst x) with Some c => [(fst x, c)] | None => [] end) (links (lfs (slog s))).
Definition today (d : Z) : Z := Z.mul (24 * 60 * 60 * 10 ^ 9) d.
Definition mwrite (t : string) (p : string) : mevent := CWrite (bs p) (ok (bs t)) (ok (bs t)) None.
Definition steps5 : list mevent := repeat CStep 5.
(** Three rotations, the mill in between: it reads the directory during the second one; the first of its requests that follow is merged
    with the second *)
Definition ex_mill : list mevent :=
  [mwrite "1" "first"] ++ steps5 ++ [mwrite "2" "second"; CStep; CStep; MReceive 0; MList 0 false [bs "sub"] (today 2); CStep; CStep; MCompress 0 Compressed] ++
  [mwrite "3" "third"] ++ steps5 ++ [mwrite "4" "fourth"] ++ steps5 ++ [MReceive 0; MList 0 false [] (today 4); MRemove 0 false; MCompress 0 Compressed; MCompress 0 Compressed] ++
  [MReceive 0; MList 0 false [] (today 5); MRemove 0 false; MCompress 0 Compressed; CClose false].
Lemma day_backup : forall n d, n = bs "app-" ++ [d] ++ bs ".log" \/ n = bs "app-" ++ [d] ++ bs ".log.gz" -> 48 <= d <= 57 -> exists t, is_backup day exname n t.
Proof.
  intros n d E D. assert (P : day [d] = Some (today (d - 48))). { unfold day, digit. rewrite (proj2 (Z.leb_le 48 d)), (proj2 (Z.leb_le d 57)) by lia. reflexivity. }
  exists (today (d - 48)). exists [d]. split; [exact P|]. destruct E as [-> | ->]; [left|right]; reflexivity.
Qed.
Lemma rests : forall dir filename max gzip parse sort MaxBackups MaxAge Compress s, spc s = Idle -> crashed s = false -> workers (smill s) = [Waiting] -> pending (smill s) = false -> ended (smill s) = false -> once (smill s) = true ->
  at_rest (mstep dir filename max gzip parse sort MaxBackups MaxAge Compress) s.
Proof.
  intros. apply at_rest_iff; [|auto]. split; [assumption|]. right. split; [assumption|]. exists Waiting. split; [assumption|split; discriminate].
Qed.
Definition path (n : string) : bytes := exdir ++ bs n.
Example C118_example : exists s o, exmill 2 0 true (newMill emptyFS false) ex_mill = (s, o) /\ sorts isort /\ Forall healthy ex_mill /\ succeeded o /\ at_rest (exmstep 2 0 true) s /\
  files s = [(path "app-3.log.gz", bs "gz:second"); (path "app-4.log.gz", bs "gz:third"); (path "app.log", bs "fourth")] /\
  List.length (asked o) = 4%nat /\ List.length (lists o) = 2%nat /\ lastRead o = Some (today 4) /\
  milled (logs o) = map path ["app-2.log"; "app-2.log.gz"; "app-2.log.gz"; "app-4.log"; "app-4.log.gz"; "app-3.log"; "app-3.log.gz"]%string /\
  a_backup exdir exname day (lfs (slog s)) (bs "app-4.log.gz").
Proof.
  do 2 eexists. split; [vm_compute; reflexivity|]. split; [exact isort_sorts|]. split; [repeat constructor|]. split; [left; exists 5%nat; now repeat (try (left; reflexivity); right)|]. split; [apply rests; reflexivity|].
  split; [vm_compute; reflexivity|]. split; [vm_compute; reflexivity|]. split; [vm_compute; reflexivity|]. split; [vm_compute; reflexivity|]. split; [vm_compute; reflexivity|].
  split; [vm_compute; discriminate|]. split; [vm_compute; intuition discriminate|]. eapply day_backup with (d := 52); [right; reflexivity|lia].
Qed.
(** A call with the mill in between; steps that the mill can make *)
Example C118_ends_example : let l := [CStep; CStep; MReceive 0; MList 0 false [] (today 2); CStep; CStep; MCompress 0 FailedEmpty; CStep] in
  let s := fst (exmill 1 0 true (newMill emptyFS true) ([mwrite "1" "first"] ++ steps5 ++ [mwrite "2" "second"])) in
  Forall no_call l /\ steps l = 5%nat /\ crashed (fst (exmill 1 0 true s l)) = false /\ spc s <> Idle /\ spc (fst (exmill 1 0 true s l)) = Idle.
Proof. cbv zeta. split; [repeat constructor|]. split; [reflexivity|]. split; [vm_compute; reflexivity|]. split; [discriminate|vm_compute; reflexivity]. Qed.
Example C118_rests_example : let s := fst (exmill 1 0 true (newMill emptyFS true) ([mwrite "1" "first"] ++ steps5 ++ [mwrite "2" "second"] ++ steps5)) in
  let l := [MReceive 0; MList 0 false [] (today 2); MCompress 0 Compressed] in Forall of_mill l /\ effective (exmstep 1 0 true) s l.
Proof.
  cbv zeta. split; [repeat constructor|]. cbn [effective]. split; [|split; [|split; [|exact I]]]; intro K; apply (f_equal (fun x => workers (smill (fst x)))) in K; vm_compute in K; discriminate K.
Qed.
Example C118_write_example : crashed (newMill emptyFS true) = false /\ spc (newMill emptyFS true) = Idle /\ ~ In 45 (Ext exname).
Proof. repeat split. vm_compute. intuition discriminate. Qed.

(** * Refuted *)

(** Without the condition that the system reports no error *)
Definition C118_full : Prop := forall dir filename max gzip parse sort MaxBackups f l s o, sorts sort -> 0 < MaxBackups ->
  mrun dir filename max gzip parse sort MaxBackups 0 false (newMill f true) l = (s, o) -> at_rest (mstep dir filename max gzip parse sort MaxBackups 0 false) s -> succeeded o ->
  forall ns, Forall (a_backup dir filename parse (lfs (slog s))) ns -> different (map uncompressedName ns) <= MaxBackups.
(** If the log cannot be opened to append, it becomes a backup for which the mill is not asked: Write succeeds, and one backup too many stays *)
Definition ex_append : list mevent :=
  [CWrite (bs "new") (mkAnswers false true false false false (bs "2") false false false false) (ok (bs "2")) None; MReceive 0; MList 0 false [] (today 2)] ++ steps5.
Definition ex_two : FS := mkFS [(path "app.log", 0%nat); (path "app-1.log", 1%nat)] [bs "old"; bs "older"].
Theorem C118_append_refuted : exists s o, exmill 1 0 false (newMill ex_two true) ex_append = (s, o) /\ at_rest (exmstep 1 0 false) s /\ succeeded o /\ milled (logs o) = [] /\
  files s = [(path "app.log", bs "new"); (path "app-2.log", bs "old"); (path "app-1.log", bs "older")].
Proof.
  do 2 eexists. split; [vm_compute; reflexivity|]. split; [apply rests; reflexivity|]. split; [left; exists 3%nat; now repeat (try (left; reflexivity); right)|]. split; vm_compute; reflexivity.
Qed.
Theorem C118_full_refuted : ~ C118_full.
Proof.
  intro H. destruct C118_append_refuted as (s & o & E & R & S & _ & F). specialize (H _ _ _ _ _ _ 1 _ _ _ _ isort_sorts ltac:(lia) E R S [bs "app-2.log"; bs "app-1.log"]).
  assert (K : Forall (a_backup exdir exname day (lfs (slog s))) [bs "app-2.log"; bs "app-1.log"]).
  { vm_compute in E. injection E as <- _. repeat constructor; try (vm_compute; discriminate); try (vm_compute; intuition discriminate); [apply day_backup with (d := 50)|apply day_backup with (d := 49)]; try lia; left; reflexivity. }
  specialize (H K). vm_compute in H. apply H. reflexivity.
Qed.
(** An error of os.Remove is dropped: the mill does not try again *)
Definition ex_remove : list mevent := [CRotate (ok (bs "2")); CStep; CStep; MReceive 0; MList 0 false [] (today 2); MRemove 0 true].
Theorem C118_remove_refuted : exists s o, exmill 1 0 false (newMill ex_two true) ex_remove = (s, o) /\ at_rest (exmstep 1 0 false) s /\ succeeded o /\
  map fst (files s) = map path ["app.log"; "app-2.log"; "app-1.log"]%string.
Proof.
  do 2 eexists. split; [vm_compute; reflexivity|]. split; [apply rests; reflexivity|]. split; [right; now repeat (try (left; reflexivity); right)|]. vm_compute. reflexivity.
Qed.
(** Close does not end the goroutine, nor does anything that follows *)
Theorem C118_close_refuted : forall l, exists w, workers (smill (fst (exmill 1 0 true (newMill emptyFS true) ([mwrite "1" "first"] ++ steps5 ++ [CClose false] ++ l)))) = [w] /\ w <> Ended.
Proof.
  intro l. destruct (exmill 1 0 true (newMill emptyFS true) ([mwrite "1" "first"] ++ steps5 ++ [CClose false] ++ l)) as [s o] eqn:E. cbn [fst].
  apply (C118_one _ _ _ _ _ _ _ _ _ _ _ _ _ _ E). rewrite mrun_app in E. apply pair_equal_spec in E as [_ <-]. rewrite asked_app.
  change (asked (snd (exmill 1 0 true (newMill emptyFS true) [mwrite "1" "first"]))) with [tt]. discriminate.
Qed.
(** A race for BackupTimeFormat, which openNew sets with the mutex held, and timeFromName without *)
Definition ex_race : list mevent := [CWrite (bs "newer") (ok (bs "2")) (ok (bs "2")) None; MReceive 0].
Theorem C118_race_refuted : race (usesC exdir exname 8) (usesM exdir exname 1 0 false) (fst (exmill 1 0 false (newMill ex_two false) ex_race)).
Proof. exists 0%nat, true, true. split; [vm_compute; reflexivity|]. split; [vm_compute; reflexivity|now left]. Qed.
(** A file of a certain name ends the program as soon as the mill reads the directory *)
Theorem C118_panic_refuted : forall max gzip parse sort MaxBackups MaxAge now p a a', 5 <= max -> lenZ p <= 5 ->
  let f := mkFS [(path "x.b-c", 0%nat)] [[]] in
  crashed (fst (mrun exdir (bs "x.b.b-c") max gzip parse sort MaxBackups MaxAge true (newMill f true) [CWrite p a a' None; MReceive 0; MList 0 false [] now])) = true.
Proof.
  intros max gzip parse sort MaxBackups MaxAge now p a a' M P. cbv zeta. unfold newMill.
  assert (L : (max <? lenZ p) = false) by (apply Z.ltb_ge; lia).
  unfold mrun, mstep, stepC. cbn [crashed spc]. rewrite L. unfold asks, ask, stepM, setWorker, setMill.
  cbn [crashed spc slog newLogger lfile once workers pending smill ended nth_error app firstn skipn noFormat negb]. rewrite andb_false_r.
  change (readDir exdir (lfs (mkLogger (mkFS [(path "x.b-c", 0%nat)] [[]]) 0 None)) []) with [(bs "x.b-c", false)]. rewrite C41_panic_refuted. reflexivity.
Qed.
Example C118_race_example : exists s, usesC exdir exname 8 s = Some false /\ usesM exdir exname 1 0 false s 0 = Some false.
Proof. exists (fst (exmill 1 0 false (newMill ex_two true) ex_race)). split; vm_compute; reflexivity. Qed.
Example C118_reads_example : exists s, nth_error (workers (smill s)) 0 = Some Awake /\ noFormat s = true /\ usesM exdir exname 1 0 false s 0 = Some true /\
  usesM exdir (bs "other.log") 1 0 false s 0 = None.
Proof. exists (fst (exmill 1 0 false (newMill ex_two false) ex_race)). repeat (split; [vm_compute; reflexivity|]). vm_compute. reflexivity. Qed.
Example C118_format_example : exists s a, answersOf (spc s) = Some a /\ aRename a = false /\ crashed s = false /\ noFormat s = true /\
  noFormat (fst (exmstep 1 0 false s CStep)) = false.
Proof. exists (fst (exmill 1 0 false (newMill ex_two false) ex_race)). eexists. repeat (split; [vm_compute; reflexivity|]). vm_compute. reflexivity. Qed.

Print Assumptions C118_write.
Print Assumptions C118_rotate.
Print Assumptions C118_ends.
Print Assumptions C118_one.
Print Assumptions C118_asked.
Print Assumptions C118_served.
Print Assumptions C118_merged.
Print Assumptions C118_rests.
Print Assumptions C118_clean.
Print Assumptions C118_only.
Print Assumptions C118_alive.
Print Assumptions C118_no_race.
Print Assumptions C118_reads.
Print Assumptions C118_format.
Print Assumptions C118_append_refuted.
Print Assumptions C118_full_refuted.
Print Assumptions C118_remove_refuted.
Print Assumptions C118_close_refuted.
Print Assumptions C118_race_refuted.
Print Assumptions C118_panic_refuted.
