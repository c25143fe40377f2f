(** Properties C36 to C38 and C65: rotation of log files. *)
From Coq Require Import Permutation Sorted.
From Verif Require Import Base RotationModel RotationSpec RotationProofs.

Section Claims.
  Variable WritePath : bytes.
  Variable Stat : Type.
  Variable noStat : Stat.
  Variable Max : Z.
  Variable hasDirectory : bytes -> bool.
  Let run := RotationModel.run WritePath Stat Max hasDirectory.
  Let NewWriter := RotationModel.NewWriter WritePath Stat noStat.

  (** * C36: rotation preserves the bytes *)

  (** Whatever fails, whatever the archives are called: the chunks that reached the disk are distributed in their order over the files
      that the writer has opened, each chunk contiguous in one file; no other file is written *)
  Theorem C36_files : forall f l s o, good_fs f -> run (NewWriter f) l = Some (s, o) ->
    exists inodes gs, NoDup inodes /\ List.concat gs = read f WritePath :: wrote o /\ map (content (fs _ s)) inodes = map (@List.concat Z) gs /\
      (forall i, (i < List.length (contents f))%nat -> ~ In i inodes -> content (fs _ s) i = content f i) /\
      (forall p, p <> WritePath -> ~ In p (archived o) -> ~ In p (removed o) -> find (links (fs _ s)) p = find (links f) p).
  Proof.
    intros f l s o G R. destruct (start_inv WritePath Stat noStat f G) as (i0 & n0 & I0 & N0 & Cr & Op & Pe & Len).
    pose proof (inv_run _ _ _ _ _ _ _ _ _ _ _ _ I0 Cr R) as [Iold If Ip Il (g & G1 & G2)].
    destruct (other_run _ _ _ _ _ _ _ _ _ _ _ _ I0 Cr R) as [O1 O2].
    exists (map (ino i0 n0) (seq 0 (nfiles n0 (fs _ s)))), (map g (seq 0 (nfiles n0 (fs _ s)))). split; [|split; [|split; [|split]]].
    - apply FinFun.Injective_map_NoDup; [|apply seq_NoDup]. intros j k E. eapply ino_inj; [|exact E]. lia.
    - exact G1.
    - rewrite !map_map. apply map_ext_in. intros k Hk. apply in_seq in Hk. apply G2. lia.
    - intros i Hi Ni. assert (Ne : i <> i0). { intro E. apply Ni. apply in_map_iff. exists 0%nat. split; [symmetry; exact E|]. apply in_seq. unfold nfiles. lia. }
      rewrite (O1 i) by (exact Ne || lia). unfold start, RotationModel.NewWriter. destruct (find (links f) WritePath) as [j|] eqn:Fi; [reflexivity|].
      unfold create. rewrite Fi. cbn [fs]. unfold content. cbn [contents]. now rewrite app_nth1.
    - intros p P A B. rewrite (O2 p P A B). unfold start, RotationModel.NewWriter. destruct (find (links f) WritePath) as [j|] eqn:Fi; [reflexivity|].
      unfold create. rewrite Fi. cbn [fs links]. rewrite find_link, streq_neq by congruence. reflexivity.
  Qed.

  (** Without I/O errors every record is such a chunk, and Write says that it has written all of it *)
  Theorem C36_records : forall f l s o, good_fs f -> Forall (healthy _) l -> run (NewWriter f) l = Some (s, o) -> at_rest _ s ->
    wrote o = calls _ l /\ returned o = map (@List.length Z) (calls _ l).
  Proof.
    intros f l s o G F R Rest. destruct (start_inv WritePath Stat noStat f G) as (i0 & n0 & I0 & N0 & Cr & Op & Pe & Len).
    pose proof (pending_run _ _ _ _ _ _ _ _ Op F R) as P. pose proof (returned_run _ _ _ _ _ _ _ _ Op F R) as Q. rewrite Pe in P.
    replace (unanswered Stat (start WritePath Stat noStat f)) with (@nil nat) in Q.
    2: { unfold unanswered, start, RotationModel.NewWriter. destruct (find (links f) WritePath); [reflexivity|]. unfold create. destruct (find (links f) WritePath); reflexivity. }
    unfold pending, unanswered in *. destruct Rest as [W|W]; rewrite W, app_nil_r in P, Q; split; assumption.
  Qed.

  (** Whatever fails: every call returns how many bytes of its record it has written, and no error only if that is all of it *)
  Theorem C36_returns : forall f l s o, run (NewWriter f) l = Some (s, o) -> at_rest _ s ->
    List.length (results o) = List.length (calls _ l) /\
    List.concat (wrote o) = List.concat (map (fun x => firstn (fst (snd x)) (fst x)) (combine (calls _ l) (results o))) /\
    Forall (fun x => (fst (snd x) <= List.length (fst x))%nat /\ (snd (snd x) = false -> fst (snd x) = List.length (fst x))) (combine (calls _ l) (results o)).
  Proof.
    intros f l s o R Rest. assert (I0 : ans_inv Stat (NewWriter f) [] [] []).
    { unfold ans_inv, NewWriter, RotationModel.NewWriter. destruct (find (links f) WritePath); [|unfold create; destruct (find (links f) WritePath)]; repeat constructor. }
    pose proof (ans_run _ _ _ _ _ _ _ _ _ _ _ I0 R) as H. unfold ans_inv in H. destruct Rest as [W|W]; rewrite W in H; exact H.
  Qed.

  (** Without I/O errors and with new archive names: the archives, in the order in which they were made, and the current file contain
      the records in their order, each record contiguous in one file.  (Archives may have been removed; the current file has not.) *)
  Theorem C36_bytes : forall f l s o, good_fs f -> Forall (healthy _) l -> new_names _ WritePath Max hasDirectory (NewWriter f) l ->
    run (NewWriter f) l = Some (s, o) -> at_rest _ s -> ~ In WritePath (removed o) ->
    exists gs g, List.concat (gs ++ [g]) = read f WritePath :: calls _ l /\ List.length gs = List.length (archived o) /\
      (forall k p h, nth_error (archived o) k = Some p -> nth_error gs k = Some h -> In p (removed o) \/ read (fs _ s) p = List.concat h) /\
      read (fs _ s) WritePath = List.concat g.
  Proof.
    intros f l s o G F Nn R Rest NR. destruct (C36_records f l s o G F R Rest) as [Wr _].
    destruct (start_inv WritePath Stat noStat f G) as (i0 & n0 & I0 & N0 & Cr & Op & Pe & Len).
    pose proof (inv_run _ _ _ _ _ _ _ _ _ _ _ _ I0 Cr R) as [Iold If Ip Il (g & G1 & G2)].
    pose proof (named_run _ _ _ _ _ _ _ _ _ _ _ _ _ _ I0 Cr N0 Nn R NR) as [M1 M2]. cbn [app] in M1, M2, G1. rewrite Wr in G1.
    set (m := List.length (archived o)) in *.
    assert (K : forall k p h, (m <= nfiles n0 (fs _ s))%nat -> nth_error (archived o) k = Some p -> nth_error (map g (seq 0 m)) k = Some h ->
      In p (removed o) \/ read (fs _ s) p = List.concat h).
    { intros k p h Lm Kp Kh. destruct (M2 k p Kp) as [_ [Q|Q]]; [right|now left].
      assert (Lk : (k < m)%nat) by (apply nth_error_Some; congruence).
      rewrite nth_error_map, (nth_error_nth' _ 0%nat), seq_nth in Kh by (rewrite ?seq_length; exact Lk). cbn [option_map Nat.add] in Kh. injection Kh as <-.
      unfold read. rewrite Q. apply G2. lia. }
    destruct M1 as [[Fi Nf]|[Fi Nf]].
    - rewrite Nf in G1. exists (map g (seq 0 m)), (g m). split; [|split; [|split]].
      + rewrite seq_S, map_app in G1. exact G1.
      + now rewrite map_length, seq_length.
      + intros k p h. apply K. lia.
      + unfold read. rewrite Fi. apply G2. lia.
    - rewrite Nf in G1. exists (map g (seq 0 m)), []. split; [|split; [|split]].
      + rewrite concat_app. cbn [List.concat]. rewrite !app_nil_r. exact G1.
      + now rewrite map_length, seq_length.
      + intros k p h. apply K. lia.
      + unfold read. now rewrite Fi.
  Qed.

  (** In particular, as long as nothing has been removed *)
  Theorem C36_kept : forall f l s o, good_fs f -> Forall (healthy _) l -> new_names _ WritePath Max hasDirectory (NewWriter f) l ->
    run (NewWriter f) l = Some (s, o) -> at_rest _ s -> removed o = [] ->
    exists gs, List.concat gs = read f WritePath :: calls _ l /\ map (read (fs _ s)) (archived o ++ [WritePath]) = map (@List.concat Z) gs.
  Proof.
    intros f l s o G F Nn R Rest NR. destruct (C36_bytes f l s o G F Nn R Rest) as (gs & g & E1 & E2 & E3 & E4); [rewrite NR; intros []|].
    exists (gs ++ [g]). split; [exact E1|]. rewrite !map_app. cbn [map]. rewrite E4. f_equal.
    apply same_nth. intro k. rewrite !nth_error_map. destruct (nth_error (archived o) k) as [p|] eqn:P.
    - destruct (nth_error gs k) as [h|] eqn:Q.
      + cbn [option_map]. destruct (E3 k p h P Q) as [X|X]; [rewrite NR in X; destruct X|now rewrite X].
      + exfalso. apply nth_error_None in Q. assert (k < List.length (archived o))%nat by (apply nth_error_Some; congruence). lia.
    - apply nth_error_None in P. assert (Q : nth_error gs k = None) by (apply nth_error_None; lia). now rewrite Q.
  Qed.

  (** * C65: rotations *)

  (** UpdateStat that says "triggered" has no effect: without a timer nothing is ever archived *)
  Theorem C65_size_refuted : forall f l s o, Forall (no_timer _) l -> run (NewWriter f) l = Some (s, o) -> archived o = [].
  Proof.
    intros f l s o F R. eapply quiet_run; [|exact F|exact R]. unfold quiet, NewWriter, RotationModel.NewWriter.
    destruct (find (links f) WritePath); [split; reflexivity || exact I|]. unfold create. destruct (find (links f) WritePath); split; reflexivity || exact I.
  Qed.
  (** Once it was triggered or something was archived, UpdateStat is never called again: the status does not become "normal" again *)
  Theorem C65_stat_refuted : forall s l s' o, status _ s <> statusNormal -> at_rest _ s -> run s l = Some (s', o) ->
    status _ s' <> statusNormal /\ updates o = [].
  Proof.
    intros s l s' o H Rest R. destruct (settled_run WritePath Stat Max hasDirectory l s s' o) as [[A _] B]; [|exact R|auto].
    split; [exact H|]. destruct Rest as [-> | ->]; exact I.
  Qed.
  (** After the first rotation every call of Write closes and opens the file *)
  Theorem C65_reopens : forall s l s' o, status _ s = statusArchived -> at_rest _ s -> Forall (healthy _) l -> run s l = Some (s', o) -> at_rest _ s' ->
    status _ s' = statusArchived /\ List.length (reopened o) = List.length (calls _ l).
  Proof.
    intros s l s' o H Rest F R Rest'. destruct (over_run WritePath Stat Max hasDirectory l s s' o) as [[A _] B]; [|exact F|exact R|].
    - split; [exact H|]. destruct Rest as [-> | ->]; exact I.
    - split; [exact A|]. unfold unopened in B. destruct Rest as [W|W], Rest' as [W'|W']; rewrite W, W' in B; lia.
  Qed.
  (** The time until the rotation: between once and twice what the trigger strategy said, whatever the timer was before (in particular
      after an error: not one minute) *)
  Theorem C65_wait : forall s d random s' o, random_ok Stat (ETrigger _ (Some d) random) -> 0 < d < 2 ^ 62 -> rp _ s = RTop ->
    run s [ETrigger _ (Some d) random] = Some (s', o) -> exists w, rtimer _ s' = Pending w /\ d <= w < 2 * d.
  Proof.
    intros s d random s' o Rd D T R. cbn in R. unfold step, stepR in R. rewrite T in R. replace (0 <? d) with true in R by lia. injection R as <- _.
    exists (int64 (d + random)). split; [reflexivity|]. cbn [random_ok] in Rd. specialize (Rd ltac:(lia)). rewrite int64_id by lia. lia.
  Qed.
  (** After a rotation the next record goes to a new file, and the archive stays as it is *)
  Theorem C65_next : forall s buf, wp _ s = WIdle -> status _ s = statusArchived -> find (links (fs _ s)) WritePath = None -> good_fs (fs _ s) -> exists s',
    run s [ECall _ buf; EWriter _; EWriter _; EOpen _ false; EOpen _ false; EWrite _ None; EWriter _] = Some (s', [OReopened; OWrote buf; OReturn (List.length buf) false]) /\
    wp _ s' = WIdle /\ read (fs _ s') WritePath = buf /\ forall p, p <> WritePath -> read (fs _ s') p = read (fs _ s) p.
  Proof.
    intros s buf W A N G. eexists. split; [|split; [|split]].
    - unfold run. cbn [RotationModel.run step]. unfold stepW. rewrite W. cbn [obind setW setFile wp status fs links file]. rewrite A. cbn [Z.eqb statusArchived Pos.eqb obind setW setFile wp status fs links file app].
      rewrite N. cbn [Z.eqb statusArchived Pos.eqb obind setW setFile wp status fs links file app]. unfold create. rewrite N. cbn [obind setW setFile wp status fs links file app closed fileWrite append inode pos].
      rewrite A. cbn [Z.eqb statusArchived statusNormal Pos.eqb obind setW setFile wp status fs links file app]. reflexivity.
    - reflexivity.
    - unfold read. cbn [setW setFile fs links]. rewrite find_link, streq_refl. unfold content. cbn [contents].
      rewrite setContent_nth by (rewrite app_length; cbn; lia). rewrite Nat.eqb_refl.
      unfold content. cbn [contents]. rewrite app_nth2, Nat.sub_diag by lia. unfold writeAt. cbn. rewrite skipn_nil. apply app_nil_r.
    - intros p P. unfold read. cbn [setW setFile fs links]. rewrite find_link, streq_neq by congruence. destruct (find (links (fs _ s)) p) as [i|] eqn:Fi; [|reflexivity].
      pose proof (G _ _ Fi) as Lt. unfold content at 1. cbn [contents]. rewrite setContent_nth by (rewrite app_length; cbn; lia).
      replace (Nat.eqb _ i) with false by (symmetry; apply Nat.eqb_neq; lia). unfold content. cbn [contents]. now rewrite app_nth1.
  Qed.
  (** If there is no directory for the archive, the rotation does nothing, and does not say so *)
  Theorem C65_directory_refuted : forall s p, rp _ s = RRename -> hasDirectory p = false -> 0 <= Max -> exists s',
    run s [ERename _ (Some p) false; ERotate _; ERotate _] = Some (s', []) /\ rp _ s' = RTop /\ rtimer _ s' = rtimer _ s /\ fs _ s' = fs _ s /\ status _ s' = statusArchived.
  Proof.
    intros s p T D M. eexists. split.
    - unfold run. cbn [RotationModel.run step]. unfold stepR. rewrite T. unfold rename. rewrite D.
      destruct (find (links (fs _ s)) WritePath); cbn [obind setR setStatus rp]; unfold PurgeSet; (replace (lenZ [] <=? Max) with true by (symmetry; apply Z.leb_le; exact M));
        cbn [obind setR setStatus rp fs app]; reflexivity.
    - repeat split.
  Qed.
End Claims.

(** * Examples for C36 *)
Definition app : bytes := bs "app.log".
Definition anyDirectory (p : bytes) : bool := true.
Definition emptyFS : FS := mkFS [] [].
Notation start0 f := (NewWriter app (option Z) None f).
Notation run0 Max := (run app (option Z) Max anyDirectory).
Definition E := event (option Z).
Definition write (r : bytes) : list E := [ECall _ r; EWriter _; EWrite _ None; EWriter _; EUpdate _ None (Some false)].
Definition write' (r : bytes) : list E := [ECall _ r; EWriter _; EWriter _; EOpen _ false; EOpen _ false; EWrite _ None; EWriter _].
Definition write'' (r : bytes) : list E := [ECall _ r; EWriter _; EWriter _; EOpen _ false; EWrite _ None; EWriter _].
Definition arch (p : bytes) (t : Z) : Archive := mkArchive p t 0.
Definition rotate (p : bytes) (l : list Archive) (purged : nat) : list E :=
  [ETrigger _ (Some 1) 0; EFire _; ERename _ (Some p) false; EList _ (Some l); ERotate _] ++ repeat (ERemove _ false) purged ++ [ERotate _].

Definition ex_rotation : list E :=
  write (bs "one ") ++ write (bs "two ") ++ rotate (bs "1.log") [arch (bs "1.log") 1] 0 ++ write' (bs "three ") ++
  (* a record that was written during the rotation *)
  [ECall _ (bs "four "); EWriter _; EWriter _; EOpen _ false] ++ rotate (bs "2.log") [arch (bs "1.log") 1; arch (bs "2.log") 2] 1 ++ [EWrite _ None; EWriter _] ++
  write' (bs "five") ++ write'' (bs " six") ++ [ETrigger _ (Some 1) 0; EClose _].
Definition ex_fs : FS := mkFS [(app, 1%nat); (bs "other", 0%nat)] [bs "mine"; bs "zero "].
Example C36_bytes_example : exists s o, good_fs ex_fs /\ Forall (healthy _) ex_rotation /\ new_names _ app 1 anyDirectory (start0 ex_fs) ex_rotation /\
  run0 1 (start0 ex_fs) ex_rotation = Some (s, o) /\ at_rest _ s /\ ~ In app (removed o) /\
  calls _ ex_rotation = [bs "one "; bs "two "; bs "three "; bs "four "; bs "five"; bs " six"] /\ wrote o = calls _ ex_rotation /\
  returned o = [4; 4; 6; 5; 4; 4]%nat /\
  archived o = [bs "1.log"; bs "2.log"] /\ removed o = [bs "1.log"] /\
  read (fs _ s) (bs "2.log") = bs "three four " /\ read (fs _ s) app = bs "five six" /\ read (fs _ s) (bs "other") = bs "mine".
Proof.
  do 2 eexists. split; [|split; [|split; [|split; [vm_compute; reflexivity|]]]].
  - intros p i H. cbn [ex_fs links find] in H. destruct (streq _ p); [injection H as <-; cbn; lia|]. destruct (streq _ p); [injection H as <-; cbn; lia|discriminate].
  - repeat constructor.
  - vm_compute. repeat split; auto; left; reflexivity.
  - split; [right; reflexivity|]. split; [vm_compute; intros [H|[]]; discriminate H|]. repeat split; vm_compute; reflexivity.
Qed.
Definition ex_kept : list E := write (bs "one ") ++ rotate (bs "1.log") [arch (bs "1.log") 1] 0 ++ write' (bs "two").
Example C36_kept_example : exists s o, good_fs emptyFS /\ Forall (healthy _) ex_kept /\ new_names _ app 1 anyDirectory (start0 emptyFS) ex_kept /\
  run0 1 (start0 emptyFS) ex_kept = Some (s, o) /\ at_rest _ s /\ removed o = [] /\
  map (read (fs _ s)) (archived o ++ [app]) = [bs "one "; bs "two"].
Proof.
  do 2 eexists. split; [intros p i H; discriminate H|]. split; [repeat constructor|]. split; [vm_compute; repeat split; auto; left; reflexivity|].
  split; [vm_compute; reflexivity|]. split; [left; reflexivity|]. repeat split; vm_compute; reflexivity.
Qed.
(** With errors: a part of a record is written, and the rotation goes on *)
Definition ex_errors : list E := [ECall _ (bs "one "); EWriter _; EWrite _ (Some 2%nat); EWriter _; EUpdate _ None None] ++ rotate (bs "1.log") [] 0 ++
  [ECall _ (bs "two"); EWriter _; EWriter _; EOpen _ true; EWrite _ None; EWriter _] ++ write' (bs "three").
Example C36_files_example : exists s o, run0 1 (start0 emptyFS) ex_errors = Some (s, o) /\ at_rest _ s /\ wrote o = [bs "on"; bs "three"] /\
  results o = [(2, true); (0, true); (5, false)]%nat /\ calls _ ex_errors = [bs "one "; bs "two"; bs "three"] /\
  map (read (fs _ s)) [bs "1.log"; app] = [bs "on"; bs "three"].
Proof. do 2 eexists. split; [vm_compute; reflexivity|]. split; [left; reflexivity|]. repeat split; vm_compute; reflexivity. Qed.

(** What writing to a file does to it, byte by byte: what is written is at its place, the rest stays, and a gap is filled with zeros *)
Theorem C36_writes : forall c pos buf i,
  ((i < pos)%nat -> (i < List.length c)%nat -> nth_error (writeAt c pos buf) i = nth_error c i) /\
  ((i < pos)%nat -> (List.length c <= i)%nat -> nth_error (writeAt c pos buf) i = Some 0) /\
  ((i < List.length buf)%nat -> nth_error (writeAt c pos buf) (pos + i) = nth_error buf i) /\
  nth_error (writeAt c pos buf) (pos + List.length buf + i) = nth_error c (pos + List.length buf + i).
Proof.
  intros c pos buf i. unfold writeAt. assert (F : List.length (firstn pos c) = Nat.min pos (List.length c)) by apply firstn_length.
  split; [|split; [|split]].
  - intros A B. rewrite nth_error_app1 by lia. rewrite <- (firstn_skipn pos c) at 2. now rewrite nth_error_app1 by lia.
  - intros A B. rewrite nth_error_app2 by lia. rewrite nth_error_app1 by (rewrite repeat_length; lia). apply nth_error_repeat. lia.
  - intros A. rewrite nth_error_app2 by lia. rewrite nth_error_app2 by (rewrite repeat_length; lia). rewrite nth_error_app1 by (rewrite repeat_length; lia). rewrite repeat_length. f_equal. lia.
  - rewrite nth_error_app2 by lia. rewrite nth_error_app2 by (rewrite repeat_length; lia). rewrite nth_error_app2 by (rewrite repeat_length; lia). rewrite repeat_length.
    replace (pos + List.length buf + i - List.length (firstn pos c) - (pos - List.length c) - List.length buf)%nat with i by lia.
    generalize (pos + List.length buf)%nat as n. clear. induction c as [|x c IH]; intros n; [rewrite skipn_nil; destruct i, n; reflexivity|]. destruct n as [|n]; [reflexivity|]. apply IH.
Qed.
Print Assumptions C36_writes.
Example C36_writes_example : writeAt (bs "abc") 1 (bs "X") = bs "aXc" /\ writeAt (bs "ab") 4 (bs "X") = bs "ab" ++ [0; 0] ++ bs "X".
Proof. split; reflexivity. Qed.
(** Without the conditions of C36_bytes: the record that was written last is in some file *)
Definition C36_full : Prop := forall WritePath Stat (noStat : Stat) Max hasDirectory f l r s o, 0 <= Max -> good_fs f -> Forall (healthy _) l ->
  run WritePath Stat Max hasDirectory (NewWriter WritePath Stat noStat f) l = Some (s, o) -> at_rest _ s -> calls _ l = r ++ [bs "last"] ->
  exists p x y, read (fs _ s) p = x ++ bs "last" ++ y.
(** A record of which Write says that it was written is not in any file: its file had been removed by the retention before it was
    written, and the writer had not yet seen that *)
Definition ex_purge : list E := write (bs "one ") ++ [ECall _ (bs "last"); EWriter _] ++ rotate (bs "1.log") [arch (bs "1.log") 1] 1 ++ [EWrite _ None; EWriter _].
Theorem C36_purge_refuted : exists s o, good_fs emptyFS /\ Forall (healthy _) ex_purge /\ new_names _ app 0 anyDirectory (start0 emptyFS) ex_purge /\
  run0 0 (start0 emptyFS) ex_purge = Some (s, o) /\ at_rest _ s /\ calls _ ex_purge = [bs "one "; bs "last"] /\ returned o = [4; 4]%nat /\
  o = [OWrote (bs "one "); OUpdate; OReturn 4 false; OArchived (bs "1.log"); ORemoved (bs "1.log"); OWrote (bs "last"); OReturn 4 false] /\
  links (fs _ s) = [].
Proof.
  do 2 eexists. split; [intros p i H; discriminate H|]. split; [repeat constructor|]. split; [vm_compute; repeat split; auto; left; reflexivity|].
  split; [vm_compute; reflexivity|]. split; [left; reflexivity|]. repeat split; vm_compute; reflexivity.
Qed.
Theorem C36_full_refuted : ~ C36_full.
Proof.
  intro H. destruct C36_purge_refuted as (s & o & G & F & _ & R & A & C & _ & _ & L).
  destruct (H app (option Z) None 0 anyDirectory emptyFS ex_purge [bs "one "] s o ltac:(lia) G F R A C) as (p & x & y & E0).
  unfold read in E0. rewrite L in E0. cbn [find] in E0. apply (f_equal (@List.length Z)) in E0. rewrite !app_length in E0. cbn in E0. lia.
Qed.
(** An archive is overwritten if the name of the next one is the same, as by NameByTime with a pattern that is coarser than the rotation *)
Definition ex_collision : list E := write (bs "one ") ++ rotate (bs "today.log") [arch (bs "today.log") 1] 0 ++ write' (bs "two ") ++
  rotate (bs "today.log") [arch (bs "today.log") 1] 0 ++ write' (bs "three").
Theorem C36_collision_refuted : exists s o, good_fs emptyFS /\ Forall (healthy _) ex_collision /\
  run0 5 (start0 emptyFS) ex_collision = Some (s, o) /\ at_rest _ s /\ removed o = [] /\ calls _ ex_collision = [bs "one "; bs "two "; bs "three"] /\
  archived o = [bs "today.log"; bs "today.log"] /\ map fst (links (fs _ s)) = [app; bs "today.log"] /\
  read (fs _ s) (bs "today.log") = bs "two " /\ read (fs _ s) app = bs "three".
Proof.
  do 2 eexists. split; [intros p i H; discriminate H|]. split; [repeat constructor|].
  split; [vm_compute; reflexivity|]. split; [left; reflexivity|]. repeat split; vm_compute; reflexivity.
Qed.

(** * C37: the time trigger *)

(** With a clock of whole seconds: until the next multiple of the interval *)
Theorem C37_boundary : forall Interval epoch, 0 < Interval < 2 ^ 63 -> 0 <= epoch -> epoch * second < 2 ^ 63 -> exists w,
  intervalTimeToTrigger Interval (epoch * second) = Some w /\ 0 < w <= Interval /\ (epoch * second + w) mod Interval = 0.
Proof.
  intros I e HI He Hn. unfold intervalTimeToTrigger. cbv zeta. rewrite Z.div_mul by discriminate. replace (I =? 0) with false by lia.
  assert (S1 : second = 1000000000) by reflexivity. rewrite !(int64_id e) by lia. rewrite (int64_id (e * second)) by lia.
  rewrite Z.rem_mod_nonneg by lia. pose proof (Z.mod_pos_bound (e * second) I ltac:(lia)) as B. rewrite int64_id by lia. eexists. split; [reflexivity|]. split; [lia|].
  pose proof (Z.div_mod (e * second) I ltac:(lia)) as D. replace (e * second + (I - (e * second) mod I)) with ((e * second / I + 1) * I) by lia. apply Z.mod_mul. lia.
Qed.
(** With a clock of nanoseconds: that, after the beginning of the current second; so it ends less than a second after the multiple *)
Theorem C37_partial : forall Interval now, 0 < Interval < 2 ^ 63 -> 0 <= now < 2 ^ 63 -> exists w k,
  intervalTimeToTrigger Interval now = Some w /\ 0 < w <= Interval /\ k * Interval <= now + w < k * Interval + second.
Proof.
  intros I now HI Hn. assert (S1 : second = 1000000000) by reflexivity. pose proof (Z.div_mod now second ltac:(lia)) as D. pose proof (Z.mod_pos_bound now second ltac:(lia)) as B.
  assert (0 <= now / second) by (apply Z.div_pos; lia).
  destruct (C37_boundary I (now / second) HI) as (w & E0 & W & M); [lia|lia|]. exists w, ((now / second * second + w) / I). split; [|split; [exact W|]].
  - rewrite <- E0. unfold intervalTimeToTrigger. rewrite Z.div_mul by lia. reflexivity.
  - pose proof (Z.div_mod (now / second * second + w) I ltac:(lia)). lia.
Qed.
Example C37_example : intervalTimeToTrigger (3600 * second) (1500000000 * second) = Some (1200 * second) /\ (1500000000 * second + 1200 * second) mod (3600 * second) = 0 /\
  intervalTimeToTrigger (86400 * second) (1500000000 * second + 123456789) = Some (76800 * second).
Proof. repeat split; vm_compute; reflexivity. Qed.
Definition C37_full : Prop := forall Interval now, 0 < Interval < 2 ^ 63 -> - 2 ^ 63 <= now -> exists w,
  intervalTimeToTrigger Interval now = Some w /\ 0 < w <= Interval /\ (now + w) mod Interval = 0.
(** Half a second past: it ends half a second after the multiple, and a whole interval of a millisecond is missed *)
Theorem C37_fraction_refuted : intervalTimeToTrigger second (5 * second + 500000000) = Some second /\ (5 * second + 500000000 + second) mod second = 500000000 /\
  intervalTimeToTrigger 1500000000 (4 * second + 999999999) = Some 500000000 /\ 4 * second + 999999999 + 500000000 = 3 * 1500000000 + 999999999.
Proof. repeat split; vm_compute; reflexivity. Qed.
(** Before 1970 the wait is longer than the interval, after the year 2262 the product overflows *)
Theorem C37_years_refuted : intervalTimeToTrigger (3600 * second) (-1 * second) = Some (3601 * second) /\
  intervalTimeToTrigger (3600 * second) (9223372800 * second) = Some 5673709551616 /\ (9223372800 * second + 5673709551616) mod (3600 * second) = 2073709551616.
Proof. repeat split; vm_compute; reflexivity. Qed.
Theorem C37_full_refuted : ~ C37_full.
Proof.
  intro H. destruct (H second (5 * second + 500000000)) as (w & E0 & _ & M); [vm_compute; split; reflexivity|vm_compute; discriminate|].
  vm_compute in E0. injection E0 as <-. vm_compute in M. discriminate M.
Qed.
(** An interval of 0 panics, and with it the background goroutine *)
Theorem C37_zero_refuted : forall now, intervalTimeToTrigger 0 now = None.
Proof. intro now. reflexivity. Qed.
(** A negative interval never asks for a timer after 1970 *)
Theorem C37_negative_refuted : forall Interval epoch, - 2 ^ 62 < Interval < 0 -> 0 <= epoch -> epoch * second < 2 ^ 63 -> exists w,
  intervalTimeToTrigger Interval (epoch * second) = Some w /\ w < 0.
Proof.
  intros I e HI He Hn. unfold intervalTimeToTrigger. cbv zeta. rewrite Z.div_mul by discriminate. replace (I =? 0) with false by lia.
  assert (S1 : second = 1000000000) by reflexivity. rewrite !(int64_id e) by lia. rewrite (int64_id (e * second)) by lia. eexists. split; [reflexivity|].
  pose proof (Z.rem_nonneg (e * second) I ltac:(lia) ltac:(lia)). pose proof (Z.rem_bound_abs (e * second) I ltac:(lia)). rewrite int64_id by lia. lia.
Qed.
Example C37_negative_example : intervalTimeToTrigger (-3600 * second) (1500000000 * second) = Some (-6000 * second).
Proof. vm_compute. reflexivity. Qed.

(** * C65: the trigger by size *)

(** trigger_by_size.go triggers exactly at the writes after which the file has SizeInKB KB or more (the first call asks the file, which has
    the record already), and keeps its size *)
Theorem C65_threshold : forall K size ns, 0 <= K < 2 ^ 53 -> 0 <= size -> Forall (fun n => 0 <= n) ns -> size + fold_right Z.add 0 ns < 2 ^ 63 ->
  feed (sizeUpdateStat K) None size (0 :: ns) = (Some (last (sizes size ns) size), map (fun x => K * 1024 <=? x) (size :: sizes size ns)).
Proof.
  intros K size ns HK Hs F Hb. cbn [feed sizeUpdateStat]. cbv zeta. rewrite (int64_id (K * 1024)) by lia. rewrite Z.add_0_r.
  assert (G : forall d, feed (sizeUpdateStat K) (Some size) d ns = (Some (last (sizes size ns) size), map (fun x => K * 1024 <=? x) (sizes size ns))).
  { revert size Hs Hb. induction F as [|n ns Hn F IH]; intros size Hs Hb d; [reflexivity|]. cbn [feed sizes fold_right] in *. unfold sizeUpdateStat at 1. cbv zeta.
    assert (0 <= fold_right Z.add 0 ns). { clear - F. induction F; cbn [fold_right]; lia. }
    rewrite (int64_id (K * 1024)), (int64_id (size + n)) by lia. rewrite IH by lia. cbn [map]. f_equal. f_equal.
    destruct ns as [|m ns]; [reflexivity|]. cbn [sizes]. cbn [last]. destruct (sizes (size + n + m) ns) eqn:Q; [reflexivity|]. generalize Q. clear.
    generalize l as q. intros q _. revert z. induction q as [|a q IH]; intro z; [reflexivity|]. cbn [last]. destruct q; [reflexivity|]. apply (IH a). }
  rewrite G. reflexivity.
Qed.
(** If file.Stat() fails, the error is returned and the next call asks again *)
Theorem C65_stat_fails : forall K n, sizeUpdateStat K None None n = (None, false, true).
Proof. reflexivity. Qed.
Example C65_threshold_example : feed (sizeUpdateStat 1) None 1000 [0; 23; 1; 7] = (Some 1031, [false; false; true; true]) /\
  feed (sizeUpdateStat (2 ^ 53)) None 5 [0; 1] = (Some 6, [true; true]).
Proof. vm_compute. split; reflexivity. Qed.

(** * C38: retention *)

Theorem C38_newest : forall Max archives spare, 0 <= Max -> lenZ archives < 2 ^ 63 -> by_time archives -> exists purge,
  PurgeSet Max archives spare = Some purge /\ keeps_newest Max archives purge.
Proof. exact purge_keeps. Qed.
(** The archives that ArchiveByMove gives to it: the files of the directory whose names are times of the pattern, by that time.  So
    ListFiles and PurgeSet together keep the newest files, however sort.Sort orders equal times *)
Theorem C38_files : forall join parse sort statSize names Max l, sorts sort -> 0 <= Max -> lenZ names < 2 ^ 63 ->
  ListFiles join parse sort statSize (Some names) = Some l ->
  Permutation (map (fun x => (Path x, ArchivedAt x)) l) (flat_map (fun n => match parse n with Some t => [(join n, t)] | None => [] end) names) /\
  Forall (fun x => statSize (Path x) = Some (Size x)) l /\ by_time l /\
  exists purge, PurgeSet Max l [] = Some purge /\ keeps_newest Max l purge.
Proof.
  intros join parse sort statSize names Max l S0 M N L. unfold ListFiles in L. cbn [obind] in L. destruct (statAll_ok _ _ _ L) as (A & B & C).
  destruct (S0 (timedFilesOf join parse names)) as [P Q].
  assert (T : by_time l) by (eapply sorted_times; eassumption).
  assert (Len : lenZ l <= lenZ names).
  { unfold lenZ. apply (f_equal (@List.length bytes)) in A. rewrite !map_length in A. rewrite A, (Permutation_length P). clear.
    induction names as [|n names IH]; [reflexivity|]. cbn [timedFilesOf flat_map List.length]. unfold timedFilesOf in IH. rewrite app_length. destruct (parse n); cbn [List.length]; lia. }
  split; [|split; [exact C|split; [exact T|apply purge_keeps; lia || exact T]]].
  assert (U : map (fun x => (tfile x, ttime x)) (timedFilesOf join parse names) = flat_map (fun n => match parse n with Some t => [(join n, t)] | None => [] end) names).
  { clear. induction names as [|n names IH]; [reflexivity|]. unfold timedFilesOf in *. cbn [flat_map]. rewrite map_app, IH. destruct (parse n); reflexivity. }
  rewrite <- U, <- (Permutation_map _ P). clear - A B. revert A B. generalize (sort (timedFilesOf join parse names)). induction l as [|x l IH]; intros [|y r] A B; try discriminate A; [constructor|].
  cbn [map] in A, B |- *. injection A as -> A. injection B as -> B. constructor. now apply IH.
Qed.
(** A negative maximum: always out of range *)
Theorem C38_negative_refuted : forall Max archives, - 2 ^ 63 <= Max < 0 -> lenZ archives < 2 ^ 63 -> PurgeSet Max archives [] = None.
Proof.
  intros Max l M L. assert (N : 0 <= lenZ l) by (unfold lenZ; lia). unfold PurgeSet. replace (lenZ l <=? Max) with false by lia. cbv zeta.
  destruct ((0 <=? int64 (lenZ l - Max)) && (int64 (lenZ l - Max) <=? lenZ l + lenZ (@nil Archive))) eqn:B; [|reflexivity]. exfalso.
  apply andb_prop in B. destruct B as [B1 B2]. apply Z.leb_le in B1, B2. change (lenZ (@nil Archive)) with 0 in B2.
  destruct (Z.lt_ge_cases (lenZ l - Max) (2 ^ 63)) as [C|C]; [rewrite int64_id in B2 by lia; lia|].
  unfold int64 in B1. replace (lenZ l - Max + 2 ^ 63) with ((lenZ l - Max - 2 ^ 63) + 1 * 2 ^ 64) in B1 by lia. rewrite Z.mod_add, Z.mod_small in B1 by lia. lia.
Qed.
(** If the slice has a greater capacity, it purges what lies behind it *)
Theorem C38_spare_refuted : exists a b c, PurgeSet (-1) [a; b] [c] = Some [a; b; c].
Proof. exists (arch (bs "a") 1), (arch (bs "b") 2), (arch (bs "c") 3). vm_compute. reflexivity. Qed.
Definition C38_full : Prop := forall Max archives, by_time archives -> exists purge, PurgeSet Max archives [] = Some purge /\ keeps_newest Max archives purge.
Theorem C38_full_refuted : ~ C38_full.
Proof.
  intro H. destruct (H (-1) []) as (p & P & _); [constructor|]. rewrite C38_negative_refuted in P; [discriminate|lia|unfold lenZ; cbn; lia].
Qed.
Example C38_example : PurgeSet 2 [arch (bs "a") 1; arch (bs "b") 2; arch (bs "c") 2] [arch (bs "z") 0] = Some [arch (bs "a") 1] /\
  by_time [arch (bs "a") 1; arch (bs "b") 2; arch (bs "c") 2] /\ PurgeSet 3 [arch (bs "a") 1; arch (bs "b") 2; arch (bs "c") 2] [] = Some [].
Proof. split; [vm_compute; reflexivity|]. split; [repeat constructor; cbn; lia|vm_compute; reflexivity]. Qed.
(** A sorting function, and a directory with three archives and two other files *)
Fixpoint insert (x : timedFile) (l : list timedFile) : list timedFile :=
  match l with
  | [] => [x]
  | y :: r => if ttime x <=? ttime y then x :: l else y :: insert x r
  end.
Lemma insert_sorts : sorts (fold_right insert []).
Proof.
  assert (P : forall x l, Permutation (insert x l) (x :: l)).
  { intros x. induction l as [|y r IH]; [reflexivity|]. cbn [insert]. destruct (ttime x <=? ttime y); [reflexivity|]. rewrite IH. apply perm_swap. }
  assert (Q : forall x l, StronglySorted (fun x y => ttime x <= ttime y) l -> StronglySorted (fun x y => ttime x <= ttime y) (insert x l)).
  { intros x l H. induction H as [|y r H IH F]; cbn [insert]; [repeat constructor|]. destruct (Z.leb_spec (ttime x) (ttime y)) as [C|C].
    - constructor; [constructor; assumption|]. constructor; [exact C|]. eapply Forall_impl; [|exact F]. cbn. intros. lia.
    - constructor; [exact IH|]. eapply Permutation_Forall; [symmetry; apply P|]. constructor; [lia|exact F]. }
  intro l. induction l as [|x l [IH1 IH2]]; cbn [fold_right]; [split; constructor|]. split; [rewrite P; now constructor|now apply Q].
Qed.
Definition ex_parse (name : bytes) : option Z := match name with [d; 46; 108; 111; 103] => Some (d - 48) | _ => None end.
Example C38_files_example : sorts (fold_right insert []) /\
  ListFiles (fun n => bs "old/" ++ n) ex_parse (fold_right insert []) (fun p => Some (lenZ p)) (Some [bs "3.log"; bs "readme"; bs "1.log"; bs "2.log"; bs "10.log"]) =
  Some [mkArchive (bs "old/1.log") 1 9; mkArchive (bs "old/2.log") 2 9; mkArchive (bs "old/3.log") 3 9] /\
  PurgeSet 2 [mkArchive (bs "old/1.log") 1 9; mkArchive (bs "old/2.log") 2 9; mkArchive (bs "old/3.log") 3 9] [] = Some [mkArchive (bs "old/1.log") 1 9].
Proof. split; [exact insert_sorts|]. split; vm_compute; reflexivity. Qed.

(** * Examples for C65 *)

(** A trigger by size that has triggered: the background goroutine waits for ever, and the file grows *)
Definition C65_full : Prop := forall WritePath Stat (noStat : Stat) Max hasDirectory f l s o st,
  run WritePath Stat Max hasDirectory (NewWriter WritePath Stat noStat f) l = Some (s, o) -> In (EUpdate _ st (Some true)) l -> rp _ s = RSelect ->
  step WritePath Stat Max hasDirectory s (EFire _) <> None.
Definition ex_size : list E := [ETrigger _ (Some 0) 0; ECall _ (repeat 0 2000); EWriter _; EWrite _ None; EWriter _; EUpdate _ (Some 2000) (Some true); EWriter _] ++
  [ECall _ (bs "more"); EWriter _; EWrite _ None; EWriter _].
Example C65_size_example : exists s o, sizeUpdateStat 1 None (Some 2000) 2000 = (Some 2000, true, false) /\ Forall (no_timer _) ex_size /\
  run0 1 (start0 emptyFS) ex_size = Some (s, o) /\ at_rest _ s /\ rp _ s = RSelect /\ rtimer _ s = NoTimer /\ status _ s = statusTriggered /\
  lenZ (read (fs _ s) app) = 2004 /\ updates o = [tt].
Proof.
  do 2 eexists. split; [reflexivity|]. split; [repeat constructor; vm_compute; discriminate|]. split; [vm_compute; reflexivity|]. split; [left; reflexivity|].
  repeat split; vm_compute; reflexivity.
Qed.
Theorem C65_full_refuted : ~ C65_full.
Proof.
  intro H. destruct C65_size_example as (s & o & _ & _ & R & _ & S0 & T & _).
  apply (H app (option Z) None 1 anyDirectory emptyFS ex_size s o (Some 2000) R); [|exact S0|].
  - unfold ex_size. right. right. right. right. right. left. reflexivity.
  - unfold step, stepR. now rewrite S0, T.
Qed.
(** A rotation is lost if it comes between the call of UpdateStat and the store of its answer: the next records go to the archive *)
Definition ex_race : list E := [ECall _ (bs "one "); EWriter _; EWrite _ None; EWriter _; EUpdate _ None (Some true)] ++ rotate (bs "1.log") [arch (bs "1.log") 1] 0 ++
  [EWriter _] ++ [ECall _ (bs "two "); EWriter _; EWrite _ None; EWriter _].
Theorem C65_race_refuted : exists s o, Forall (healthy _) ex_race /\ run0 1 (start0 emptyFS) ex_race = Some (s, o) /\ at_rest _ s /\ status _ s = statusTriggered /\
  find (links (fs _ s)) app = None /\ read (fs _ s) (bs "1.log") = bs "one two ".
Proof. do 2 eexists. split; [repeat constructor|]. split; [vm_compute; reflexivity|]. split; [left; reflexivity|]. repeat split; vm_compute; reflexivity. Qed.
(** After an error the minute is not waited for if the trigger has a time *)
Definition ex_retry : list E := [ETrigger _ (Some 5) 3; EFire _; ERename _ None false; ETrigger _ (Some 7) 2].
Theorem C65_retry_refuted : exists s1 s, run0 1 (start0 emptyFS) (firstn 3 ex_retry) = Some (s1, []) /\ rtimer _ s1 = Pending (60 * second) /\
  run0 1 (start0 emptyFS) ex_retry = Some (s, []) /\ rtimer _ s = Pending 9.
Proof. do 2 eexists. split; [vm_compute; reflexivity|]. split; [reflexivity|]. split; vm_compute; reflexivity. Qed.
Example C65_wait_example : exists s s' o, rp _ s = RTop /\ random_ok _ (ETrigger (option Z) (Some 7) 2) /\ run0 1 s [ETrigger _ (Some 7) 2] = Some (s', o) /\ rtimer _ s' = Pending 9.
Proof. exists (start0 emptyFS). do 2 eexists. split; [reflexivity|]. split; [cbn; lia|]. split; vm_compute; reflexivity. Qed.
Definition ex_after : list E := write (bs "one ") ++ rotate (bs "1.log") [arch (bs "1.log") 1] 0.
Example C65_next_example : exists s o, run0 1 (start0 emptyFS) ex_after = Some (s, o) /\ wp _ s = WIdle /\ status _ s = statusArchived /\
  find (links (fs _ s)) app = None /\ good_fs (fs _ s) /\ read (fs _ s) (bs "1.log") = bs "one ".
Proof.
  do 2 eexists. split; [vm_compute; reflexivity|]. split; [reflexivity|]. split; [reflexivity|]. split; [vm_compute; reflexivity|]. split; [|vm_compute; reflexivity].
  intros p i H. cbn [fs links find] in H. destruct (streq _ p); [injection H as <-; cbn; lia|discriminate].
Qed.
Example C65_reopens_example : exists s o s' o', run0 1 (start0 emptyFS) ex_after = Some (s, o) /\ status _ s = statusArchived /\ at_rest _ s /\
  run0 1 s (write' (bs "a") ++ write'' (bs "b") ++ write'' (bs "c")) = Some (s', o') /\ at_rest _ s' /\ List.length (reopened o') = 3%nat /\ updates o' = [].
Proof. do 4 eexists. split; [vm_compute; reflexivity|]. split; [reflexivity|]. split; [left; reflexivity|]. split; [vm_compute; reflexivity|]. split; [left; reflexivity|]. split; vm_compute; reflexivity. Qed.
Example C65_directory_example : exists s s', run app (option Z) 1 (fun _ => false) (start0 emptyFS) [ETrigger _ (Some 1) 0; EFire _] = Some (s, []) /\ rp _ s = RRename /\
  run app (option Z) 1 (fun _ => false) s [ERename _ (Some (bs "old/1.log")) false; ERotate _; ERotate _] = Some (s', []) /\ fs _ s' = fs _ s.
Proof. do 2 eexists. split; [vm_compute; reflexivity|]. split; [reflexivity|]. split; vm_compute; reflexivity. Qed.
(** With a negative maximum the first rotation is the last: the background goroutine panics *)
Theorem C65_negative_refuted : exists s o, run0 (-1) (start0 emptyFS) (write (bs "one ") ++ firstn 5 (rotate (bs "1.log") [arch (bs "1.log") 1] 0)) = Some (s, o) /\
  rp _ s = RGone /\ In ODied o.
Proof. do 2 eexists. split; [vm_compute; reflexivity|]. split; [reflexivity|]. vm_compute. auto 9. Qed.

Print Assumptions C36_files.
Print Assumptions C36_records.
Print Assumptions C36_returns.
Print Assumptions C36_bytes.
Print Assumptions C36_kept.
Print Assumptions C36_purge_refuted.
Print Assumptions C36_full_refuted.
Print Assumptions C36_collision_refuted.
Print Assumptions C37_boundary.
Print Assumptions C37_partial.
Print Assumptions C37_fraction_refuted.
Print Assumptions C37_years_refuted.
Print Assumptions C37_full_refuted.
Print Assumptions C37_zero_refuted.
Print Assumptions C37_negative_refuted.
Print Assumptions C38_newest.
Print Assumptions C38_files.
Print Assumptions C38_negative_refuted.
Print Assumptions C38_spare_refuted.
Print Assumptions C38_full_refuted.
Print Assumptions C65_size_refuted.
Print Assumptions C65_threshold.
Print Assumptions C65_stat_fails.
Print Assumptions C65_stat_refuted.
Print Assumptions C65_reopens.
Print Assumptions C65_wait.
Print Assumptions C65_next.
Print Assumptions C65_directory_refuted.
Print Assumptions C65_full_refuted.
Print Assumptions C65_race_refuted.
Print Assumptions C65_retry_refuted.
Print Assumptions C65_negative_refuted.
