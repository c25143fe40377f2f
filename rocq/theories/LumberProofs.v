(** Proofs about the rolling logger. *)
From Coq Require Import Permutation Sorted.
From Verif Require Import Base RotationModel RotationSpec RotationProofs LumberModel LumberSpec.

Lemma setContent_same : forall l i, (i < List.length l)%nat -> setContent l i (nth i l []) = l.
Proof.
  induction l as [|x l IH]; intros i H; cbn in H; [lia|]. destruct i; [reflexivity|]. unfold setContent in *. cbn [firstn skipn nth app]. f_equal. apply IH. lia.
Qed.
Lemma nth_last : forall A (l : list A) x d, nth (List.length l) (l ++ [x]) d = x.
Proof. intros. rewrite app_nth2, Nat.sub_diag by lia. reflexivity. Qed.

Ltac conj := repeat match goal with |- _ /\ _ => split end.
Section Lumber.
  Variables (name : bytes) (max : Z) (backup gzip : bytes -> bytes).
  Hypothesis backup_other : forall t, backup t <> name.
  Hypothesis max_small : max < 2 ^ 62.
  Let openNew := LumberModel.openNew name backup.
  Let rotate := LumberModel.rotate name backup.
  Let openExistingOrNew := LumberModel.openExistingOrNew name max backup.
  Let Write := LumberModel.Write name max backup.
  Let step := LumberModel.step name max backup gzip.
  Let run := LumberModel.run name max backup gzip.

  (** * Records *)
  Record records (f0 f : FS) (inodes : list nat) (gs : list (list bytes)) (ns rem : list bytes) : Prop := {
    j_nodup : NoDup inodes;
    j_lt : Forall (fun i => (i < List.length (contents f))%nat) inodes;
    j_content : map (content f) inodes = map (@List.concat Z) gs;
    j_link : (exists pre i, inodes = pre ++ [i] /\ find (links f) name = Some i /\ List.length pre = List.length ns) \/
             (find (links f) name = None /\ List.length inodes = List.length ns);
    j_names : forall k p, nth_error ns k = Some p -> p <> name /\ (find (links f) p = nth_error inodes k \/ In p rem);
    j_other : forall i, (i < List.length (contents f0))%nat -> ~ In i inodes -> content f i = content f0 i;
    j_path : forall p, p <> name -> ~ In p ns -> ~ In p rem -> find (links f) p = find (links f0) p;
    j_more : (List.length (contents f0) <= List.length (contents f))%nat;
    j_new : forall i, In i inodes -> find (links f0) name = Some i \/ (List.length (contents f0) <= i)%nat
  }.
  Variable f0 : FS.
  Notation J := (records f0).
  Definition opened (s : logger) : Prop :=
    match lfile s with
    | None => True
    | Some x => find (links (lfs s)) name = Some (inode x) /\ (append x = false -> pos x = List.length (content (lfs s) (inode x)))
    end.

  Definition moved (f : FS) (i : nat) (p : bytes) : FS := mkFS (link (unlink (links f) name) p i) (contents f).
  Lemma moved_name : forall f i p, p <> name -> find (links (moved f i p)) name = None.
  Proof. intros f i p H. cbn [moved links]. rewrite find_link, find_unlink, streq_refl, streq_neq by exact H. reflexivity. Qed.
  Lemma J_move : forall f inodes gs ns rem i p, J f inodes gs ns rem -> find (links f) name = Some i -> find (links f) p = None -> p <> name ->
    J (moved f i p) inodes gs (ns ++ [p]) rem.
  Proof.
    intros f inodes gs ns rem i p [H1 H2 H3 H4 H5 H6 H7 H8 H9] Fi Fp Np. constructor; auto.
    - right. rewrite moved_name by exact Np. split; [reflexivity|]. destruct H4 as [(pre & j & -> & _ & L)|[H4 _]]; [|congruence]. rewrite !app_length. cbn. lia.
    - intros k q K. cbn [moved links]. rewrite find_link, find_unlink.
      destruct H4 as [(pre & j & -> & Fj & L)|[H4 _]]; [|congruence]. rewrite Fi in Fj. injection Fj as <-.
      destruct (Nat.lt_ge_cases k (List.length ns)) as [Lt|Ge].
      + rewrite nth_error_app1 in K by exact Lt. destruct (H5 k q K) as [Nq Q]. split; [exact Nq|]. rewrite (streq_neq name q) by congruence.
        destruct (streq p q) eqn:Eq; [|exact Q]. apply streq_eq in Eq. subst q. right. destruct Q as [Q|Q]; [|exact Q]. exfalso. rewrite Fp in Q. symmetry in Q.
        apply nth_error_None in Q. rewrite app_length in Q. cbn in Q. lia.
      + rewrite nth_error_app2 in K by exact Ge. destruct (k - List.length ns)%nat as [|d] eqn:D; [|destruct d; discriminate K]. injection K as <-.
        split; [exact Np|]. left. rewrite streq_refl. rewrite nth_error_app2 by lia. replace (k - List.length pre)%nat with 0%nat by lia. reflexivity.
    - intros q Q1 Q2 Q3. cbn [moved links]. rewrite find_link, find_unlink, (streq_neq name q) by congruence. rewrite streq_neq; [|intros ->; apply Q2; apply in_or_app; right; now left].
      apply H7; auto. intro I. apply Q2. apply in_or_app. now left.
  Qed.

  (** Creating the log, when there is none *)
  Definition created (f : FS) : FS := mkFS (link (links f) name (List.length (contents f))) (contents f ++ [[]]).
  Lemma create_none : forall f, find (links f) name = None -> createTrunc f name = (created f, mkFile (List.length (contents f)) false 0 false).
  Proof. intros f H. unfold createTrunc. rewrite H. reflexivity. Qed.
  Lemma created_name : forall f, find (links (created f)) name = Some (List.length (contents f)).
  Proof. intro f. cbn [created links]. now rewrite find_link, streq_refl. Qed.
  Lemma create_again : forall f, createTrunc (created f) name = (created f, mkFile (List.length (contents f)) false 0 false).
  Proof.
    intro f. unfold createTrunc. rewrite created_name. f_equal. unfold created. f_equal. cbn [contents].
    rewrite <- (setContent_same (contents f ++ [[]]) (List.length (contents f))) at 2 by (rewrite app_length; cbn; lia). now rewrite nth_last.
  Qed.
  Lemma content_old : forall f c i ls, (i < List.length (contents f))%nat -> content (mkFS ls (contents f ++ [c])) i = content f i.
  Proof. intros. unfold content. cbn [contents]. now rewrite app_nth1. Qed.
  Lemma J_create : forall f inodes gs ns rem, J f inodes gs ns rem -> find (links f) name = None -> 
    J (created f) (inodes ++ [List.length (contents f)]) (gs ++ [[]]) ns rem.
  Proof.
    intros f inodes gs ns rem [H1 H2 H3 H4 H5 H6 H7 H8 H9] Fn. rewrite Forall_forall in H2. constructor.
    - apply (Permutation_NoDup (l := List.length (contents f) :: inodes)); [apply Permutation_cons_append|].
      constructor; [|exact H1]. intro I. specialize (H2 _ I). cbn in H2. lia.
    - rewrite Forall_forall. intros i I. cbn [created contents]. rewrite app_length. cbn [List.length]. apply in_app_or in I. destruct I as [I|[<-|[]]]; [|lia].
      specialize (H2 _ I). cbn in H2. lia.
    - rewrite !map_app. f_equal.
      + etransitivity; [|exact H3]. apply map_ext_in. intros i I. apply content_old. exact (H2 i I).
      + cbn [map List.concat]. unfold content. cbn [created contents]. now rewrite nth_last.
    - left. exists inodes, (List.length (contents f)). split; [reflexivity|]. split; [apply created_name|]. destruct H4 as [(pre & j & _ & Fj & _)|[_ H4]]; [congruence|exact H4].
    - intros k p K. destruct (H5 k p K) as [Np Q]. split; [exact Np|]. cbn [created links]. rewrite find_link, streq_neq by congruence.
      destruct Q as [Q|Q]; [left|now right]. rewrite nth_error_app1; [exact Q|]. assert (L : (k < List.length ns)%nat) by (apply nth_error_Some; congruence).
      destruct H4 as [(pre & j & _ & Fj & _)|[_ H4]]; [congruence|lia].
    - intros i I Ni. rewrite <- (H6 i I); [|intro K; apply Ni; apply in_or_app; now left]. apply content_old. lia.
    - intros q Q1 Q2 Q3. cbn [created links]. rewrite find_link, streq_neq by congruence. now apply H7.
    - cbn [created contents]. rewrite app_length. lia.
    - intros i I. apply in_app_or in I. destruct I as [I|[<-|[]]]; [auto|right; exact H8].
  Qed.

  (** Writing to the log *)
  Lemma J_write : forall f x inodes gs ns rem chunk, J f inodes gs ns rem -> find (links f) name = Some (inode x) ->
    (append x = false -> pos x = List.length (content f (inode x))) ->
    let r := fileWrite f x chunk in
    links (fst r) = links f /\ List.length (contents (fst r)) = List.length (contents f) /\ inode (snd r) = inode x /\ content (fst r) (inode x) = content f (inode x) ++ chunk /\
    (append (snd r) = false -> pos (snd r) = List.length (content (fst r) (inode (snd r)))) /\
    exists gs', J (fst r) inodes gs' ns rem /\ List.concat gs' = List.concat gs ++ [chunk].
  Proof.
    intros f x inodes gs ns rem chunk [H1 H2 H3 H4 H5 H6 H7 H8 H9] Fi Ps. cbv zeta.
    destruct H4 as [(pre & j & -> & Fj & L)|[H4 _]]; [|congruence]. rewrite Fi in Fj. injection Fj as <-.
    assert (Lt : (inode x < List.length (contents f))%nat). { rewrite Forall_forall in H2. apply (H2 (inode x)). apply in_or_app. right. now left. }
    assert (C : (if append x then content f (inode x) ++ chunk else writeAt (content f (inode x)) (pos x) chunk) = content f (inode x) ++ chunk).
    { destruct (append x); [reflexivity|]. rewrite (Ps eq_refl). apply writeAt_end. }
    unfold fileWrite. rewrite C. cbn [fst snd links contents inode append pos]. set (f' := mkFS _ _).
    assert (K : forall k, content f' k = if Nat.eqb (inode x) k then content f (inode x) ++ chunk else content f k).
    { intro k. unfold content at 1. cbn [f' contents]. now apply setContent_nth. }
    assert (Ln : List.length (contents f') = List.length (contents f)) by (cbn [f' contents]; now apply setContent_length).
    split; [reflexivity|]. split; [exact Ln|]. split; [reflexivity|]. split; [rewrite K, Nat.eqb_refl; reflexivity|].
    split; [intro A; rewrite K, Nat.eqb_refl, app_length, (Ps A); reflexivity|].
    rewrite map_app in H3. cbn [map] in H3. destruct (rev gs) as [|g rgs] eqn:Rg.
    { apply (f_equal (@rev _)) in Rg. rewrite rev_involutive in Rg. subst gs. cbn in H3. destruct (map (content f) pre); discriminate H3. }
    apply (f_equal (@rev _)) in Rg. rewrite rev_involutive in Rg. cbn [rev] in Rg. subst gs. rewrite map_app in H3. cbn [map] in H3.
    apply app_inj_tail in H3. destruct H3 as [H3 H3'].
    exists (rev rgs ++ [g ++ [chunk]]). split.
    - constructor; auto.
      + rewrite Ln. exact H2.
      + rewrite !map_app. cbn [map]. rewrite K, Nat.eqb_refl, concat_app. cbn [List.concat]. rewrite app_nil_r, <- H3'. f_equal. rewrite <- H3. apply map_ext_in.
        intros i I. rewrite K. replace (Nat.eqb (inode x) i) with false; [reflexivity|]. symmetry. apply Nat.eqb_neq. intros <-.
        apply NoDup_remove_2 in H1. apply H1. rewrite app_nil_r. exact I.
      + left. exists pre, (inode x). auto.
      + intros i I Ni. rewrite K. replace (Nat.eqb (inode x) i) with false; [now apply H6|]. symmetry. apply Nat.eqb_neq. intros <-. apply Ni. apply in_or_app. right. now left.
      + lia.
    - rewrite !concat_app. cbn [List.concat]. now rewrite !app_nil_r, app_assoc.
  Qed.

  (** The mill *)
  Lemma J_mill : forall f inodes gs ns rem f' o, J f inodes gs ns rem ->
    (forall i, (i < List.length (contents f))%nat -> content f' i = content f i) -> (List.length (contents f) <= List.length (contents f'))%nat ->
    find (links f') name = find (links f) name -> (forall q, ~ In q (milled o) -> find (links f') q = find (links f) q) ->
    J f' inodes gs ns (rem ++ milled o).
  Proof.
    intros f inodes gs ns rem f' o [H1 H2 H3 H4 H5 H6 H7 H8 H9] C L N O. rewrite Forall_forall in H2. constructor; auto.
    - rewrite Forall_forall. intros i I. specialize (H2 i I). cbn in H2. lia.
    - rewrite <- H3. apply map_ext_in. intros i I. apply C. exact (H2 i I).
    - rewrite N. exact H4.
    - intros k p K. destruct (H5 k p K) as [Np Q]. split; [exact Np|]. rewrite in_app_iff.
      destruct (in_dec (list_eq_dec Z.eq_dec) p (milled o)) as [I|I]; [auto|]. rewrite (O p I). destruct Q; auto.
    - intros i I Ni. rewrite C by lia. now apply H6.
    - intros q Q1 Q2 Q3. rewrite in_app_iff in Q3. rewrite O by tauto. apply H7; tauto.
    - lia.
  Qed.
  Lemma compress_ok : forall f src dst c f' o, compress gzip f src dst c = (f', o) -> src <> name -> dst <> name ->
    (forall i, (i < List.length (contents f))%nat -> content f' i = content f i) /\ (List.length (contents f) <= List.length (contents f'))%nat /\
    find (links f') name = find (links f) name /\ (forall q, ~ In q (milled o) -> find (links f') q = find (links f) q) /\ backups o = [] /\ wrote o = [].
  Proof.
    intros f src dst c f' o E Ns Nd. unfold compress in E. destruct (find (links f) src) as [i|]; [|injection E as <- <-; auto 8].
    destruct c; apply pair_equal_spec in E; destruct E as [<- <-]; auto 8.
    - split; [intros k Hk; cbn [replace contents]; now apply content_old|]. cbn [replace contents links milled flat_map app]. rewrite app_length. split; [lia|].
      rewrite find_unlink, find_link, !streq_neq by congruence. split; [reflexivity|]. split; [|auto]. intros q Q. rewrite find_unlink, find_link.
      rewrite !streq_neq; [reflexivity| |]; intros ->; apply Q; cbn; auto.
    - split; [intros k Hk; now apply content_old|]. cbn [replace contents links milled flat_map app]. rewrite app_length. split; [lia|].
      rewrite find_link, !streq_neq by congruence. split; [reflexivity|]. split; [|auto]. intros q Q. rewrite find_link.
      rewrite streq_neq; [reflexivity|]; intros ->; apply Q; cbn; auto.
    - cbn [contents links milled flat_map app]. split; [auto|]. split; [lia|]. rewrite find_unlink, streq_neq by congruence. split; [reflexivity|].
      split; [|auto]. intros q Q. rewrite find_unlink, streq_neq; [reflexivity|]; intros ->; apply Q; cbn; auto.
  Qed.

  (** openNew with a closed file *)
  Lemma openNew_ok : forall s a s' err o inodes gs ns rem, J (lfs s) inodes gs ns rem -> lfile s = None -> aStatNew a = false ->
    find (links (lfs s)) (backup (aTime a)) = None -> openNew s a = (s', err, o) ->
    opened s' /\ wrote o = [] /\ milled o = [] /\ returned o = [] /\ (lfile s' = None <-> err = true) /\ (err = false -> size s' = 0) /\
    exists inodes' gs', J (lfs s') inodes' gs' (ns ++ backups o) rem /\ List.concat gs' = List.concat gs.
  Proof.
    intros s a s' err o inodes gs ns rem H Lf St Nn E. unfold openNew, LumberModel.openNew in E. rewrite St, Lf in E.
    destruct (aMkdir a). { injection E as <- <- <-. unfold opened. rewrite Lf. cbn. repeat (split; [auto; try discriminate; tauto|]). exists inodes, gs. rewrite app_nil_r. auto. }
    assert (Fin : forall f inodes gs ns o0, J f inodes gs ns rem -> find (links f) name = None \/ (exists fc, f = created fc) ->
      wrote o0 = [] -> milled o0 = [] -> returned o0 = [] -> 
      (if aCreate a then (mkLogger f (size s) None, true, o0) else let '(f, x) := createTrunc f name in (mkLogger f 0 (Some x), false, o0)) = (s', err, o) ->
      opened s' /\ wrote o = [] /\ milled o = [] /\ returned o = [] /\ (lfile s' = None <-> err = true) /\ (err = false -> size s' = 0) /\ o = o0 /\
      exists inodes' gs', J (lfs s') inodes' gs' ns rem /\ List.concat gs' = List.concat gs).
    { clear E. intros f is g n o0 Hf Cf W1 W2 W3 E. destruct (aCreate a).
      - injection E as <- <- <-. unfold opened. cbn [lfile lfs]. repeat (split; [auto; try discriminate; tauto|]). exists is, g. auto.
      - destruct Cf as [Fn|[fc ->]].
        + rewrite create_none in E by exact Fn. injection E as <- <- <-. unfold opened. cbn [lfile lfs inode append pos size]. rewrite created_name.
          split; [split; [reflexivity|]; intros _; unfold content; cbn [created contents]; now rewrite nth_last|].
          repeat (split; [auto; try discriminate; split; discriminate|]). exists (is ++ [List.length (contents f)]), (g ++ [[]]). split; [now apply J_create|].
          rewrite concat_app. cbn [List.concat]. apply app_nil_r.
        + rewrite create_again in E. injection E as <- <- <-. unfold opened. cbn [lfile lfs inode append pos size]. rewrite created_name.
          split; [split; [reflexivity|]; intros _; unfold content; cbn [created contents]; now rewrite nth_last|].
          repeat (split; [auto; try discriminate; split; discriminate|]). exists is, g. auto. }
    cbv zeta in E. destruct (find (links (lfs s)) name) as [i|] eqn:Fi.
    - destruct (aRename a). { injection E as <- <- <-. unfold opened. rewrite Lf. cbn. repeat (split; [auto; try discriminate; tauto|]). exists inodes, gs. rewrite app_nil_r. auto. }
      pose proof (J_move _ _ _ _ _ i (backup (aTime a)) H Fi Nn (backup_other _)) as Hm. fold (moved (lfs s) i (backup (aTime a))) in E.
      pose proof (moved_name (lfs s) i (backup (aTime a)) (backup_other _)) as Fm. set (f1 := moved (lfs s) i (backup (aTime a))) in *.
      destruct (aChownOpen a). { injection E as <- <- <-. unfold opened. cbn [lfile lfs backups flat_map app]. repeat (split; [auto; try discriminate; tauto|]). exists inodes, gs. auto. }
      rewrite create_none in E by exact Fm. pose proof (J_create _ _ _ _ _ Hm Fm) as Hc.
      destruct (aChown a).
      + injection E as <- <- <-. unfold opened. cbn [lfile lfs backups flat_map app]. repeat (split; [auto; try discriminate; tauto|]).
        exists (inodes ++ [List.length (contents f1)]), (gs ++ [[]]). split; [exact Hc|]. rewrite concat_app. cbn [List.concat]. apply app_nil_r.
      + destruct (Fin _ _ _ _ [OBackup (backup (aTime a))] Hc (or_intror (ex_intro _ f1 eq_refl)) eq_refl eq_refl eq_refl E) as (A & B & C & D & F & G & -> & is' & gs' & J' & Cc).
        repeat (split; [assumption|]). exists is', gs'. split; [exact J'|]. rewrite Cc, concat_app. cbn [List.concat]. apply app_nil_r.
    - destruct (Fin _ _ _ _ [] H (or_introl Fi) eq_refl eq_refl eq_refl E) as (A & B & C & D & F & G & -> & is' & gs' & J' & Cc).
      repeat (split; [assumption|]). exists is', gs'. split; [|exact Cc]. cbn [backups flat_map]. now rewrite app_nil_r.
  Qed.

  Definition after (s' : logger) (err : bool) (o : list output) (gs : list (list bytes)) (ns rem : list bytes) : Prop :=
    opened s' /\ wrote o = [] /\ milled o = [] /\ returned o = [] /\ (lfile s' = None <-> err = true) /\
    exists inodes' gs', J (lfs s') inodes' gs' (ns ++ backups o) rem /\ List.concat gs' = List.concat gs.
  Lemma after_same : forall s err inodes gs ns rem, J (lfs s) inodes gs ns rem -> lfile s = None -> err = true -> after s err [] gs ns rem.
  Proof.
    intros s err inodes gs ns rem H Lf ->. unfold after, opened. rewrite Lf. cbn [wrote milled returned backups flat_map]. repeat (split; [auto; try tauto|]).
    exists inodes, gs. now rewrite app_nil_r.
  Qed.
  Lemma rotate_ok : forall s a s' err o inodes gs ns rem, J (lfs s) inodes gs ns rem -> aStatNew a = false ->
    find (links (lfs s)) (backup (aTime a)) = None -> rotate s a = (s', err, o) -> after s' err o gs ns rem /\ (err = false -> size s' = 0).
  Proof.
    intros s a s' err o inodes gs ns rem H St Nn E. unfold rotate, LumberModel.rotate, close in E. destruct (lfile s) as [x|] eqn:Lf.
    - destruct (aClose a).
      + injection E as <- <- <-. split; [|discriminate]. eapply after_same; eauto.
      + destruct (openNew_ok _ _ _ _ _ _ _ _ _ (H : J (lfs (mkLogger (lfs s) (size s) None)) _ _ _ _) eq_refl St Nn E) as (A & B & C & D & F & G & K).
        split; [|exact G]. unfold after. auto 8.
    - destruct (openNew_ok _ _ _ _ _ _ _ _ _ H Lf St Nn E) as (A & B & C & D & F & G & K). split; [|exact G]. unfold after. auto 8.
  Qed.
  Lemma openExisting_ok : forall s a n s' err o inodes gs ns rem, J (lfs s) inodes gs ns rem -> lfile s = None -> aStatNew a = false ->
    find (links (lfs s)) (backup (aTime a)) = None -> 0 <= n <= max -> openExistingOrNew s a n = (s', err, o) ->
    after s' err o gs ns rem /\ (err = false -> (max <? int64 (size s' + n)) = false).
  Proof.
    intros s a n s' err o inodes gs ns rem H Lf St Nn Hn E. 
    assert (Z0 : forall x, x = 0 -> (max <? int64 (x + n)) = false). { intros x ->. apply Z.ltb_ge. rewrite int64_id; lia. }
    unfold openExistingOrNew, LumberModel.openExistingOrNew in E. destruct (find (links (lfs s)) name) as [i|] eqn:Fi.
    - destruct (aStat a); [injection E as <- <- <-; split; [eapply after_same; eauto|discriminate]|]. cbv zeta in E.
      destruct (max <=? int64 (lenZ (content (lfs s) i) + n)) eqn:Mx.
      + destruct (rotate_ok _ _ _ _ _ _ _ _ _ H St Nn E) as [A B]. auto.
      + destruct (aAppend a).
        * destruct (openNew_ok _ _ _ _ _ _ _ _ _ H Lf St Nn E) as (A & B & C & D & F & G & K). split; [unfold after; auto 8|auto].
        * injection E as <- <- <-. split.
          -- unfold after, opened. cbn [lfile lfs inode append wrote milled returned backups flat_map]. split; [split; [exact Fi|discriminate]|].
             repeat (split; [auto; split; discriminate|]). exists inodes, gs. now rewrite app_nil_r.
          -- intros _. cbn [size]. apply Z.leb_gt in Mx. apply Z.ltb_ge. lia.
    - destruct (aStat a); [injection E as <- <- <-; split; [eapply after_same; eauto|discriminate]|].
      destruct (openNew_ok _ _ _ _ _ _ _ _ _ H Lf St Nn E) as (A & B & C & D & F & G & K). split; [unfold after; auto 8|auto].
  Qed.

  Lemma wrote_app : forall a b, wrote (a ++ b) = wrote a ++ wrote b.
  Proof. intros. apply flat_map_app. Qed.
  Lemma milled_app : forall a b, milled (a ++ b) = milled a ++ milled b.
  Proof. intros. apply flat_map_app. Qed.
  Lemma backups_app : forall a b, backups (a ++ b) = backups a ++ backups b.
  Proof. intros. apply flat_map_app. Qed.
  Lemma returned_app : forall a b, returned (a ++ b) = returned a ++ returned b.
  Proof. intros. apply flat_map_app. Qed.

  Lemma Write_ok : forall s p a a' fails s' o inodes gs ns rem, J (lfs s) inodes gs ns rem -> opened s -> aStatNew a = false -> aStatNew a' = false ->
    find (links (lfs s)) (backup (aTime a)) = None -> find (links (lfs s)) (backup (aTime a')) = None -> Write s p a a' fails = (s', o) ->
    opened s' /\ milled o = [] /\
    (exists n err, returned o = [(n, err)] /\ List.concat (wrote o) = firstn n p /\ (err = false -> wrote o = [p] /\ n = List.length p)) /\
    exists inodes' gs', J (lfs s') inodes' gs' (ns ++ backups o) rem /\ List.concat gs' = List.concat gs ++ wrote o.
  Proof.
    intros s p a a' fails s' o inodes gs ns rem H Op St St' Nn Nn' E. unfold Write, LumberModel.Write in E. cbv zeta in E.
    assert (Lp : 0 <= lenZ p) by (unfold lenZ; lia).
    destruct (max <? lenZ p) eqn:Big.
    { injection E as <- <-. split; [exact Op|]. split; [reflexivity|]. split; [exists 0%nat, true; repeat split; discriminate|].
      exists inodes, gs. cbn [backups wrote flat_map]. now rewrite !app_nil_r. }
    apply Z.ltb_ge in Big.
    set (r := match lfile s with None => _ | Some _ => _ end) in E. destruct r as [[s1 err1] o1] eqn:R. subst r.
    assert (P1 : after s1 err1 o1 gs ns rem /\ (err1 = false -> (max <? int64 (size s1 + lenZ p)) = false \/ (s1 = s /\ o1 = []))).
    { destruct (lfile s) as [x|] eqn:Lf.
      - injection R as <- <- <-. split; [|auto]. unfold after. rewrite Lf. cbn [wrote milled returned backups flat_map]. repeat (split; [auto; split; discriminate|]).
        exists inodes, gs. now rewrite app_nil_r.
      - destruct (openExisting_ok _ _ _ _ _ _ _ _ _ _ H Lf St Nn (conj Lp Big) R) as [A B]. auto. }
    destruct P1 as [(A1 & A2 & A3 & A4 & A5 & is1 & gs1 & J1 & C1) Sz].
    destruct err1.
    { injection E as <- <-. split; [exact A1|]. rewrite milled_app, returned_app, wrote_app, backups_app, A2, A3, A4. cbn. split; [reflexivity|].
      split; [exists 0%nat, true; repeat split; discriminate|]. exists is1, gs1. now rewrite !app_nil_r, C1. }
    set (r := if max <? int64 (size s1 + lenZ p) then _ else _) in E. destruct r as [[s2 err2] o2] eqn:R2. subst r.
    assert (P2 : after s2 err2 o2 gs1 (ns ++ backups o1) rem).
    { destruct (max <? int64 (size s1 + lenZ p)) eqn:M2.
      - destruct (Sz eq_refl) as [Sz'|[-> ->]]; [discriminate|]. exact (proj1 (rotate_ok _ _ _ _ _ _ _ _ _ J1 St' Nn' R2)).
      - injection R2 as <- <- <-. unfold after. cbn [wrote milled returned backups flat_map]. repeat (split; [auto|]). exists is1, gs1. now rewrite app_nil_r. }
    destruct P2 as (B1 & B2 & B3 & B4 & B5 & is2 & gs2 & J2 & C2).
    assert (Q : forall o3, milled (o1 ++ o2 ++ o3) = milled o3 /\ returned (o1 ++ o2 ++ o3) = returned o3 /\ wrote (o1 ++ o2 ++ o3) = wrote o3 /\
      backups (o1 ++ o2 ++ o3) = backups o1 ++ backups o2 ++ backups o3).
    { intro o3. rewrite !milled_app, !returned_app, !wrote_app, !backups_app, A2, A3, A4, B2, B3, B4. auto. }
    destruct err2.
    { injection E as <- <-. destruct (Q [OReturn 0 true]) as (-> & -> & -> & ->). split; [exact B1|]. split; [reflexivity|].
      split; [exists 0%nat, true; repeat split; discriminate|]. exists is2, gs2. cbn [backups wrote flat_map]. rewrite !app_nil_r, app_assoc. split; [exact J2|congruence]. }
    destruct (lfile s2) as [x|] eqn:Lf2; [|destruct B5 as [B5 _]; specialize (B5 eq_refl); discriminate].
    unfold opened in B1. rewrite Lf2 in B1. destruct B1 as [Fx Px].
    set (chunk := match fails with None => p | Some n => firstn n p end) in *.
    destruct (fileWrite (lfs s2) x chunk) as [f3 x3] eqn:W. injection E as <- <-.
    destruct (J_write _ _ _ _ _ _ chunk J2 Fx Px) as (L1 & L2 & L3 & L4 & L5 & gs3 & J3 & C3). rewrite W in *. cbn [fst snd] in *.
    match goal with |- context [o1 ++ o2 ++ ?q] => destruct (Q q) as (-> & -> & -> & ->) end.
    cbn [milled returned wrote backups flat_map]. rewrite !app_nil_r.
    split; [unfold opened; cbn [lfile lfs]; rewrite L1, L3; split; [exact Fx|]; rewrite L3 in L5; exact L5|]. split; [reflexivity|]. split.
    - exists (List.length chunk), (match fails with None => false | Some _ => true end). split; [reflexivity|]. cbn [List.concat app]. split.
      + rewrite app_nil_r. subst chunk. destruct fails as [n|]; [|now rewrite firstn_all]. rewrite firstn_length. destruct (Nat.min_spec n (List.length p)) as [[_ ->]|[Le ->]]; [reflexivity|].
        rewrite firstn_all. now apply firstn_all2.
      + subst chunk. destruct fails; [discriminate|auto].
    - exists is2, gs3. cbn [lfs]. rewrite app_assoc. split; [exact J3|]. congruence.
  Qed.

  Lemma step_ok : forall s e s' o inodes gs ns rem, J (lfs s) inodes gs ns rem -> opened s -> stats e -> spares name e ->
    (forall t, In t (times e) -> find (links (lfs s)) (backup t) = None) -> step s e = (s', o) ->
    opened s' /\ exists inodes' gs', J (lfs s') inodes' gs' (ns ++ backups o) (rem ++ milled o) /\ List.concat gs' = List.concat gs ++ wrote o.
  Proof.
    intros s e s' o inodes gs ns rem H Op St Sp Nn E. unfold step, LumberModel.step in E. destruct e as [p a a' fails|a|fails| |p|p c]; cbn [stats spares times In] in *.
    - destruct St as [St St']. destruct (Write_ok _ _ _ _ _ _ _ _ _ _ _ H Op St St' (Nn _ (or_introl eq_refl)) (Nn _ (or_intror (or_introl eq_refl))) E) as (A & B & _ & C).
      rewrite B, app_nil_r. auto.
    - destruct (LumberModel.rotate name backup s a) as [[s1 e1] o1] eqn:R. injection E as <- <-.
      destruct (rotate_ok _ _ _ _ _ _ _ _ _ H St (Nn _ (or_introl eq_refl)) R) as [(A1 & A2 & A3 & A4 & A5 & A6) _]. split; [exact A1|]. rewrite A2, A3, !app_nil_r. exact A6.
    - injection E as <- <-. cbn [wrote backups milled flat_map]. rewrite !app_nil_r. unfold close, opened in *. destruct (lfile s) eqn:Lf; cbn [fst lfile lfs]; [|rewrite Lf]; split; auto; exists inodes, gs; auto.
    - injection E as <- <-. cbn [wrote backups milled flat_map]. rewrite !app_nil_r. split; [exact I|]. exists inodes, gs. auto.
    - destruct (find (links (lfs s)) p) as [i|].
      + injection E as <- <-. assert (Jn : J (mkFS (unlink (links (lfs s)) p) (contents (lfs s))) inodes gs ns (rem ++ milled [ORemoved p])).
        { eapply J_mill; [exact H|reflexivity|reflexivity| |].
          - cbn [links]. rewrite find_unlink, streq_neq by congruence. reflexivity.
          - intros q Q. cbn [links]. rewrite find_unlink, streq_neq; [reflexivity|]. intros ->. apply Q. now left. }
        split; [|exists inodes, gs; cbn [wrote backups flat_map lfs]; rewrite !app_nil_r; auto].
        unfold opened in *. cbn [lfile lfs links]. destruct (lfile s); [|exact I]. rewrite find_unlink, streq_neq by congruence. exact Op.
      + injection E as <- <-. cbn [wrote backups milled flat_map]. rewrite !app_nil_r. split; [exact Op|]. exists inodes, gs. auto.
    - destruct (compress gzip (lfs s) p (p ++ bs ".gz") c) as [f1 o1] eqn:Cm. injection E as <- <-. destruct Sp as [Sp Sq].
      destruct (compress_ok _ _ _ _ _ _ Cm Sp Sq) as (A & B & C & D & F & G).
      split.
      + unfold opened in *. cbn [lfile lfs]. destruct (lfile s) as [x|]; [|exact I]. rewrite C. split; [apply Op|]. intro K. rewrite A; [apply Op; exact K|].
        destruct (j_link _ _ _ _ _ _ H) as [(pre & j & Ei & Fj & _)|[Fj _]]; [|destruct Op; congruence]. destruct Op as [Fx _]. rewrite Fx in Fj. injection Fj as ->.
        pose proof (j_lt _ _ _ _ _ _ H) as L. rewrite Forall_forall in L. apply L. rewrite Ei. apply in_or_app. right. now left.
      + exists inodes, gs. rewrite F, G, !app_nil_r. split; [|reflexivity]. eapply J_mill; eauto.
  Qed.

  Lemma run_ok : forall l s s' o inodes gs ns rem, J (lfs s) inodes gs ns rem -> opened s -> Forall stats l -> Forall (spares name) l ->
    new_names name max backup gzip s l -> run s l = (s', o) ->
    opened s' /\ exists inodes' gs', J (lfs s') inodes' gs' (ns ++ backups o) (rem ++ milled o) /\ List.concat gs' = List.concat gs ++ wrote o.
  Proof.
    induction l as [|e l IH]; intros s s' o inodes gs ns rem H Op St Sp Nn E.
    - injection E as <- <-. split; [exact Op|]. exists inodes, gs. cbn. now rewrite !app_nil_r.
    - inversion St as [|? ? St1 St2]; subst. inversion Sp as [|? ? Sp1 Sp2]; subst. destruct Nn as [Nn1 Nn2].
      unfold run in E. cbn [LumberModel.run] in E. fold (step s e) in E, Nn2. destruct (step s e) as [s1 o1] eqn:E1. cbn [fst] in Nn2.
      destruct (LumberModel.run name max backup gzip s1 l) as [s2 o2] eqn:E2. injection E as <- <-.
      destruct (step_ok _ _ _ _ _ _ _ _ H Op St1 Sp1 Nn1 E1) as (Op1 & is1 & gs1 & J1 & C1).
      destruct (IH _ _ _ _ _ _ _ J1 Op1 St2 Sp2 Nn2 E2) as (Op2 & is2 & gs2 & J2 & C2).
      split; [exact Op2|]. exists is2, gs2. rewrite backups_app, milled_app, wrote_app, !app_assoc. rewrite C1 in C2. auto.
  Qed.

  (** * What Write returns *)
  Lemma openNew_quiet : forall s a s' err o, openNew s a = (s', err, o) -> wrote o = [] /\ returned o = [].
  Proof.
    intros s a s' err o E. unfold openNew, LumberModel.openNew in E. cbv zeta in E. destruct (aMkdir a); [injection E as <- <- <-; auto|].
    assert (C : forall f o0, wrote o0 = [] -> returned o0 = [] -> 
      (if aCreate a then (mkLogger f (size s) (lfile s), true, o0) else let '(f, x) := createTrunc f name in (mkLogger f 0 (Some x), false, o0)) = (s', err, o) -> wrote o = [] /\ returned o = []).
    { intros f o0 W R K. destruct (aCreate a); [|destruct (createTrunc f name)]; injection K as <- <- <-; auto. }
    destruct (find (links (lfs s)) name) as [i|]; [|apply (C _ [] eq_refl eq_refl E)]. destruct (aStatNew a); [apply (C _ [] eq_refl eq_refl E)|].
    destruct (aRename a); [injection E as <- <- <-; auto|]. destruct (aChownOpen a); [injection E as <- <- <-; auto|].
    destruct (createTrunc _ name) as [f2 x]. destruct (aChown a); [injection E as <- <- <-; auto|]. apply (C _ [OBackup (backup (aTime a))] eq_refl eq_refl E).
  Qed.
  Lemma rotate_quiet : forall s a s' err o, rotate s a = (s', err, o) -> wrote o = [] /\ returned o = [].
  Proof.
    intros s a s' err o E. unfold rotate, LumberModel.rotate in E. destruct (close s (aClose a)) as [s1 e1]. destruct e1; [injection E as <- <- <-; auto|].
    eapply openNew_quiet. exact E.
  Qed.
  Lemma openExisting_quiet : forall s a n s' err o, openExistingOrNew s a n = (s', err, o) -> wrote o = [] /\ returned o = [].
  Proof.
    intros s a n s' err o E. unfold openExistingOrNew, LumberModel.openExistingOrNew in E. cbv zeta in E. destruct (find (links (lfs s)) name) as [i|].
    - destruct (aStat a); [injection E as <- <- <-; auto|]. destruct (max <=? _); [exact (rotate_quiet _ _ _ _ _ E)|]. destruct (aAppend a); [exact (openNew_quiet _ _ _ _ _ E)|].
      injection E as <- <- <-. auto.
    - destruct (aStat a); [injection E as <- <- <-; auto|]. exact (openNew_quiet _ _ _ _ _ E).
  Qed.
  Lemma Write_returns : forall s p a a' fails s' o, Write s p a a' fails = (s', o) -> exists n err, returned o = [(n, err)] /\ List.concat (wrote o) = firstn n p /\
    (n <= List.length p)%nat /\ (err = false -> wrote o = [p] /\ n = List.length p).
  Proof.
    intros s p a a' fails s' o E. unfold Write, LumberModel.Write in E. cbv zeta in E.
    assert (No : forall o', wrote o' = [] -> returned o' = [] -> exists n err, returned (o' ++ [OReturn 0 true]) = [(n, err)] /\ List.concat (wrote (o' ++ [OReturn 0 true])) = firstn n p /\
      (n <= List.length p)%nat /\ (err = false -> wrote (o' ++ [OReturn 0 true]) = [p] /\ n = List.length p)).
    { intros o' W R. exists 0%nat, true. rewrite wrote_app, returned_app, W, R. conj; try reflexivity; [lia|discriminate]. }
    destruct (max <? lenZ p). { injection E as <- <-. apply (No [] eq_refl eq_refl). }
    set (r := match lfile s with None => _ | Some _ => _ end) in E. destruct r as [[s1 err1] o1] eqn:R. subst r.
    assert (Q1 : wrote o1 = [] /\ returned o1 = []) by (destruct (lfile s); [injection R as <- <- <-; auto|exact (openExisting_quiet _ _ _ _ _ _ R)]). destruct Q1 as [W1 R1].
    destruct err1. { injection E as <- <-. now apply No. }
    set (r := if max <? int64 (size s1 + lenZ p) then _ else _) in E. destruct r as [[s2 err2] o2] eqn:R2. subst r.
    assert (Q2 : wrote o2 = [] /\ returned o2 = []) by (destruct (max <? _); [exact (rotate_quiet _ _ _ _ _ R2)|injection R2 as <- <- <-; auto]). destruct Q2 as [W2 R3].
    assert (Q : wrote (o1 ++ o2) = [] /\ returned (o1 ++ o2) = []) by (rewrite wrote_app, returned_app, W1, W2, R1, R3; auto). destruct Q as [W Rt].
    destruct err2. { injection E as <- <-. rewrite app_assoc. now apply No. }
    destruct (lfile s2) as [x|]. 2:{ injection E as <- <-. rewrite app_assoc. now apply No. }
    set (chunk := match fails with None => p | Some n => firstn n p end) in *. destruct (fileWrite (lfs s2) x chunk) as [f3 x3]. injection E as <- <-.
    rewrite app_assoc, wrote_app, returned_app, W, Rt. cbn [app wrote returned flat_map List.concat].
    exists (List.length chunk), (match fails with None => false | Some _ => true end). rewrite app_nil_r. split; [reflexivity|]. split; [|split].
    - subst chunk. destruct fails as [n|]; [|now rewrite firstn_all]. rewrite firstn_length. destruct (Nat.min_spec n (List.length p)) as [[_ ->]|[Le ->]]; [reflexivity|].
      rewrite firstn_all. now apply firstn_all2.
    - subst chunk. destruct fails; [rewrite firstn_length|]; lia.
    - subst chunk. destruct fails; [discriminate|auto].
  Qed.
  Lemma step_returns : forall s e s' o, step s e = (s', o) -> (forall p a a' fails, e <> EWrite p a a' fails) -> wrote o = [] /\ returned o = [].
  Proof.
    intros s e s' o E N. destruct e as [p a a' fails|a|fails| |p|p c]; unfold step in E; cbn [LumberModel.step] in E.
    - destruct (N p a a' fails eq_refl).
    - destruct (LumberModel.rotate name backup s a) as [[s1 e1] o1] eqn:R. injection E as <- <-. exact (rotate_quiet _ _ _ _ _ R).
    - injection E as <- <-. auto.
    - injection E as <- <-. auto.
    - destruct (find (links (lfs s)) p); injection E as <- <-; auto.
    - destruct (compress gzip (lfs s) p (p ++ bs ".gz") c) as [f1 o1] eqn:Cm. injection E as <- <-. unfold compress in Cm.
      destruct (find (links (lfs s)) p); [|injection Cm as <- <-; auto]. destruct c; apply pair_equal_spec in Cm; destruct Cm as [<- <-]; auto.
  Qed.
  Lemma run_returns : forall l s s' o, run s l = (s', o) -> List.length (returned o) = List.length (calls l) /\
    List.concat (wrote o) = List.concat (map (fun x => firstn (fst (snd x)) (fst x)) (combine (calls l) (returned o))) /\
    Forall (fun x => (fst (snd x) <= List.length (fst x))%nat /\ (snd (snd x) = false -> fst (snd x) = List.length (fst x))) (combine (calls l) (returned o)) /\
    (failures o = [] -> wrote o = calls l).
  Proof.
    induction l as [|e l IH]; intros s s' o E.
    - injection E as <- <-. cbn. auto.
    - unfold run in E. cbn [LumberModel.run] in E. fold (step s e) in E. destruct (step s e) as [s1 o1] eqn:E1.
      destruct (LumberModel.run name max backup gzip s1 l) as [s2 o2] eqn:E2. injection E as <- <-. destruct (IH _ _ _ E2) as (A & B & C & D).
      assert (Fs : failures (o1 ++ o2) = failures o1 ++ failures o2) by apply flat_map_app.
      destruct e as [p a a' fails|a|fails| |p|p c].
      2-6: destruct (step_returns _ _ _ _ E1 ltac:(discriminate)) as [W R]; rewrite returned_app, wrote_app, W, R, Fs; cbn [app]; change (calls (_ :: l)) with (calls l);
           conj; auto; intro F; apply app_eq_nil in F; tauto.
      destruct (Write_returns _ _ _ _ _ _ _ E1) as (n & err & R & W & Le & Er). rewrite returned_app, wrote_app, R, Fs. cbn [app]. change (calls (EWrite p a a' fails :: l)) with (p :: calls l).
      cbn [List.length combine map List.concat fst snd]. rewrite concat_app, W, B. conj; auto.
      + constructor; [|exact C]. cbn [fst snd]. split; [exact Le|]. intro K. now apply Er.
      + intro F. apply app_eq_nil in F. destruct F as [F1 F2]. destruct err; [|rewrite (proj1 (Er eq_refl)), (D F2); reflexivity]. exfalso.
        clear - R F1. revert R F1. unfold returned, failures. induction o1 as [|y o1 I]; [discriminate|]. destruct y as [m [|]| | | |]; cbn [flat_map app]; try discriminate; auto.
  Qed.

  (** * Sizes: any errors *)
  Hypothesis max_pos : 0 <= max.
  Hypothesis small0 : forall i, lenZ (content f0 i) < 2 ^ 62.
  Record sized (f : FS) (G : list nat) (rem : list bytes) : Prop := {
    s_good : good_fs f;
    s_size : forall i, (i < List.length (contents f))%nat -> lenZ (content f i) <= max \/ In i G \/ ((i < List.length (contents f0))%nat /\ content f i = content f0 i);
    s_lt : forall i, In i G -> (i < List.length (contents f))%nat;
    s_g : forall q i, find (links f) q = Some i -> In i G -> In q rem;
    s_name : forall i, find (links f) name = Some i -> ~ In i G
  }.
  Definition filled (s : logger) : Prop :=
    match lfile s with
    | None => True
    | Some x => find (links (lfs s)) name = Some (inode x) /\ (append x = false -> pos x = List.length (content (lfs s) (inode x))) /\
                size s = lenZ (content (lfs s) (inode x)) /\ size s <= max
    end.
  Lemma sized_small : forall f G rem i, sized f G rem -> find (links f) name = Some i -> lenZ (content f i) < 2 ^ 62.
  Proof.
    intros f G rem i H Fi. destruct (s_size _ _ _ H i (s_good _ _ _ H _ _ Fi)) as [L|[L|[_ L]]]; [lia| |].
    - destruct (s_name _ _ _ H i Fi L).
    - rewrite L. apply small0.
  Qed.
  Lemma sized_move : forall f G rem i p, sized f G rem -> find (links f) name = Some i -> p <> name -> sized (moved f i p) G rem.
  Proof.
    intros f G rem i p [H1 H2 H3 H4 H5] Fi Np. constructor; auto.
    - intros q k. cbn [moved links contents]. rewrite find_link, find_unlink. destruct (streq p q); [intro K; injection K as <-; eauto|]. destruct (streq name q); [discriminate|]. eauto.
    - intros q k. cbn [moved links contents]. rewrite find_link, find_unlink. destruct (streq p q); [intros K I; injection K as <-; destruct (H5 _ Fi I)|]. destruct (streq name q); [discriminate|]. eauto.
    - intro k. rewrite moved_name by exact Np. discriminate.
  Qed.
  (** A new file, at a path that is that of the log iff it is not in G *)
  Lemma sized_replace : forall f G rem p c G' rem', sized f G rem -> 
    (p = name /\ G' = G /\ rem' = rem /\ lenZ c <= max) \/ (p <> name /\ G' = List.length (contents f) :: G /\ (forall q, In q rem -> In q rem') /\ In p rem') ->
    sized (replace f p c) G' rem'.
  Proof.
    intros f G rem p c G' rem' [H1 H2 H3 H4 H5] C. 
    assert (Ln : List.length (contents (replace f p c)) = S (List.length (contents f))) by (cbn [replace contents]; rewrite app_length; cbn; lia).
    assert (Gs : forall i, In i G -> In i G') by (intros i I; destruct C as [(_ & -> & _)|(_ & -> & _)]; cbn; auto).
    assert (Gr : forall i, In i G' -> (i < List.length (contents f))%nat -> In i G) by (intros i I L; destruct C as [(_ & -> & _)|(_ & -> & _)]; auto; destruct I as [<-|I]; [lia|auto]).
    constructor.
    - intros q i. rewrite Ln. cbn [replace links]. rewrite find_link. destruct (streq p q); intro K; [injection K as <-; lia|]. specialize (H1 _ _ K). lia.
    - intros i. rewrite Ln. intro L. destruct (Nat.eq_dec i (List.length (contents f))) as [->|Ne].
      + replace (content (replace f p c) (List.length (contents f))) with c by (unfold content; cbn [replace contents]; now rewrite nth_last).
        destruct C as [(_ & _ & _ & C)|(_ & -> & _)]; [auto|]. right. left. now left.
      + replace (content (replace f p c) i) with (content f i) by (symmetry; unfold content; cbn [replace contents]; apply app_nth1; lia).
        destruct (H2 i ltac:(lia)) as [A|[A|A]]; auto.
    - intros i I. rewrite Ln. destruct C as [(_ & -> & _)|(_ & -> & _)]; [specialize (H3 i I); lia|]. destruct I as [<-|I]; [lia|]. specialize (H3 i I). lia.
    - intros q i. cbn [replace links]. rewrite find_link. destruct (streq p q) eqn:Eq; intros K I.
      + injection K as <-. apply streq_eq in Eq. subst q. destruct C as [(_ & -> & _)|(_ & _ & _ & C)]; [|exact C]. specialize (H3 _ I). lia.
      + pose proof (H4 q i K (Gr i I (H1 _ _ K))) as R. destruct C as [(_ & _ & -> & _)|(_ & _ & C & _)]; auto.
    - intros i. cbn [replace links]. rewrite find_link. destruct (streq p name) eqn:Eq; intros K I.
      + injection K as <-. apply streq_eq in Eq. destruct C as [(_ & -> & _)|(C & _)]; [|congruence]. specialize (H3 _ I). lia.
      + exact (H5 i K (Gr i I (H1 _ _ K))).
  Qed.
  Lemma sized_unlink : forall f G rem p rem', sized f G rem -> (forall q, In q rem -> In q rem') -> sized (mkFS (unlink (links f) p) (contents f)) G rem'.
  Proof.
    intros f G rem p rem' [H1 H2 H3 H4 H5] C. constructor; auto; cbn [links contents].
    - intros q i. cbn [links contents]. rewrite find_unlink. destruct (streq p q); [discriminate|]. apply H1.
    - intros q i. rewrite find_unlink. destruct (streq p q); [discriminate|]. eauto.
    - intros i. rewrite find_unlink. destruct (streq p name); [discriminate|]. apply H5.
  Qed.
  Lemma sized_more : forall f G rem rem', sized f G rem -> (forall q, In q rem -> In q rem') -> sized f G rem'.
  Proof. intros f G rem rem' [H1 H2 H3 H4 H5] C. constructor; eauto. Qed.
  Lemma sized_set : forall f G rem i c, sized f G rem -> find (links f) name = Some i -> lenZ c <= max -> sized (mkFS (links f) (setContent (contents f) i c)) G rem.
  Proof.
    intros f G rem i c [H1 H2 H3 H4 H5] Fi C. pose proof (H1 _ _ Fi) as Lt. constructor; auto; cbn [links contents].
    - intros q k K. cbn [contents]. rewrite setContent_length by exact Lt. eauto.
    - intros k. rewrite setContent_length by exact Lt. intro L. unfold content at 1 2. cbn [contents]. rewrite !setContent_nth by exact Lt.
      destruct (Nat.eqb i k); [auto|]. exact (H2 k L).
    - intros k I. rewrite setContent_length by exact Lt. auto.
  Qed.
  (** Creating or truncating the log *)
  Lemma sized_create : forall f G rem, sized f G rem -> let r := createTrunc f name in
    sized (fst r) G rem /\ filled (mkLogger (fst r) 0 (Some (snd r))).
  Proof.
    intros f G rem H. cbv zeta. unfold createTrunc. destruct (find (links f) name) as [i|] eqn:Fi; cbn [fst snd].
    - pose proof (s_good _ _ _ H _ _ Fi) as Lt. split; [apply sized_set; auto; cbn; lia|]. unfold filled. cbn [lfile lfs links inode append pos size].
      assert (C : content (mkFS (links f) (setContent (contents f) i [])) i = []) by (unfold content; cbn [contents]; now rewrite setContent_nth, Nat.eqb_refl by exact Lt).
      rewrite C. auto.
    - split; [eapply sized_replace; [exact H|left; cbn; auto]|]. unfold filled. cbn [lfile lfs links inode append pos size]. rewrite find_link, streq_refl.
      unfold content. cbn [contents]. rewrite nth_last. auto.
  Qed.
  Lemma openNew_sized : forall s a s' err o G rem, sized (lfs s) G rem -> lfile s = None -> openNew s a = (s', err, o) ->
    sized (lfs s') G rem /\ filled s' /\ milled o = [] /\ (err = true -> lfile s' = None) /\ (err = false -> size s' = 0).
  Proof.
    intros s a s' err o G rem H Lf E. unfold openNew, LumberModel.openNew in E. rewrite Lf in E. cbv zeta in E.
    destruct (aMkdir a). { injection E as <- <- <-. unfold filled. rewrite Lf. conj; auto; discriminate. }
    assert (Fin : forall f o0, sized f G rem -> milled o0 = [] ->
      (if aCreate a then (mkLogger f (size s) None, true, o0) else let '(f, x) := createTrunc f name in (mkLogger f 0 (Some x), false, o0)) = (s', err, o) ->
      sized (lfs s') G rem /\ filled s' /\ milled o = [] /\ (err = true -> lfile s' = None) /\ (err = false -> size s' = 0)).
    { clear E. intros f o0 Hf M E. destruct (aCreate a).
      - injection E as <- <- <-. unfold filled. cbn. conj; auto; discriminate.
      - destruct (sized_create f G rem Hf) as [A B]. destruct (createTrunc f name) as [f1 x]. injection E as <- <- <-. conj; auto; discriminate. }
    destruct (find (links (lfs s)) name) as [i|] eqn:Fi; [|apply (Fin _ [] H eq_refl E)].
    destruct (aStatNew a); [apply (Fin _ [] H eq_refl E)|].
    destruct (aRename a). { injection E as <- <- <-. unfold filled. rewrite Lf. conj; auto; discriminate. }
    pose proof (sized_move _ _ _ i (backup (aTime a)) H Fi (backup_other _)) as Hm. fold (moved (lfs s) i (backup (aTime a))) in E.
    set (f1 := moved (lfs s) i (backup (aTime a))) in *.
    destruct (aChownOpen a). { injection E as <- <- <-. unfold filled; cbn [lfile]; conj; auto; discriminate. }
    destruct (sized_create f1 G rem Hm) as [A _]. destruct (createTrunc f1 name) as [f2 x]. cbn [fst] in A.
    destruct (aChown a). { injection E as <- <- <-. unfold filled; cbn [lfile]; conj; auto; discriminate. }
    apply (Fin _ [OBackup (backup (aTime a))] A eq_refl E).
  Qed.
  Lemma rotate_sized : forall s a s' err o G rem, sized (lfs s) G rem -> rotate s a = (s', err, o) ->
    sized (lfs s') G rem /\ filled s' /\ milled o = [] /\ (err = true -> lfile s' = None) /\ (err = false -> size s' = 0).
  Proof.
    intros s a s' err o G rem H E. unfold rotate, LumberModel.rotate, close in E. destruct (lfile s) as [x|] eqn:Lf.
    - destruct (aClose a); [injection E as <- <- <-; unfold filled; cbn [lfile]; conj; auto; discriminate|].
      exact (openNew_sized _ _ _ _ _ _ _ (H : sized (lfs (mkLogger (lfs s) (size s) None)) _ _) eq_refl E).
    - exact (openNew_sized _ _ _ _ _ _ _ H Lf E).
  Qed.
  Lemma Write_sized : forall s p a a' fails s' o G rem, sized (lfs s) G rem -> filled s -> Write s p a a' fails = (s', o) ->
    sized (lfs s') G rem /\ filled s' /\ milled o = [] /\
    (forall n o', o = o' ++ [OReturn n false] -> n = List.length p /\ exists i x, find (links (lfs s')) name = Some i /\ content (lfs s') i = x ++ p).
  Proof.
    intros s p a a' fails s' o G rem H Op E. unfold Write, LumberModel.Write in E. cbv zeta in E.
    assert (Lp : 0 <= lenZ p) by (unfold lenZ; lia).
    assert (No : forall oo n o', oo ++ [OReturn 0 true] = o' ++ [OReturn n false] -> n = List.length p /\ exists i x, find (links (lfs s')) name = Some i /\ content (lfs s') i = x ++ p)
      by (intros oo n o' K; apply app_inj_tail in K; destruct K; discriminate).
    destruct (max <? lenZ p) eqn:Big. { injection E as <- <-. conj; auto. apply (No []). }
    apply Z.ltb_ge in Big.
    set (r := match lfile s with None => _ | Some _ => _ end) in E. destruct r as [[s1 err1] o1] eqn:R. subst r.
    assert (P1 : sized (lfs s1) G rem /\ filled s1 /\ milled o1 = [] /\ (err1 = false -> size s1 <= max /\ 0 <= size s1)).
    { destruct (lfile s) as [x|] eqn:Lf.
      - injection R as <- <- <-. conj; auto. intros _. unfold filled in Op. rewrite Lf in Op. destruct Op as (_ & _ & Sx & Sm). split; [exact Sm|]. rewrite Sx. unfold lenZ. lia.
      - unfold LumberModel.openExistingOrNew in R. destruct (find (links (lfs s)) name) as [i|] eqn:Fi.
        + destruct (aStat a). { injection R as <- <- <-. conj; auto; discriminate. }
          destruct (max <=? int64 (lenZ (content (lfs s) i) + lenZ p)) eqn:Mx.
          * destruct (rotate_sized _ _ _ _ _ _ _ H R) as (A & B & C & _ & D). conj; auto; intros; rewrite D by assumption; lia.
          * destruct (aAppend a).
            -- destruct (openNew_sized _ _ _ _ _ _ _ H Lf R) as (A & B & C & _ & D). conj; auto; intros; rewrite D by assumption; lia.
            -- injection R as <- <- <-. pose proof (sized_small _ _ _ _ H Fi) as Sm. assert (0 <= lenZ (content (lfs s) i)) by (unfold lenZ; lia).
               apply Z.leb_gt in Mx. rewrite int64_id in Mx by lia. unfold filled. cbn [lfile lfs inode append size]. conj; auto; try discriminate; lia.
        + destruct (aStat a). { injection R as <- <- <-. conj; auto; discriminate. }
          destruct (openNew_sized _ _ _ _ _ _ _ H Lf R) as (A & B & C & _ & D). conj; auto; intros; rewrite D by assumption; lia. }
    destruct P1 as (A1 & A2 & A3 & A4).
    destruct err1. { injection E as <- <-. rewrite milled_app, A3. conj; auto. apply No. }
    destruct (A4 eq_refl) as [A5 A6].
    set (r := if max <? int64 (size s1 + lenZ p) then _ else _) in E. destruct r as [[s2 err2] o2] eqn:R2. subst r.
    assert (P2 : sized (lfs s2) G rem /\ filled s2 /\ milled o2 = [] /\ (err2 = false -> 0 <= size s2 /\ size s2 + lenZ p <= max)).
    { destruct (max <? int64 (size s1 + lenZ p)) eqn:M2.
      - destruct (rotate_sized _ _ _ _ _ _ _ A1 R2) as (A & B & C & _ & D). conj; auto; intros; rewrite D by assumption; lia.
      - injection R2 as <- <- <-. apply Z.ltb_ge in M2. rewrite int64_id in M2 by lia. auto. }
    destruct P2 as (B1 & B2 & B3 & B4).
    destruct err2. { injection E as <- <-. rewrite !milled_app, A3, B3. conj; auto. rewrite app_assoc. apply No. }
    destruct (B4 eq_refl) as [B5 B6].
    destruct (lfile s2) as [x|] eqn:Lf2; [|injection E as <- <-; rewrite !milled_app, A3, B3; conj; auto; rewrite app_assoc; apply No].
    pose proof B2 as F2. unfold filled in F2. rewrite Lf2 in F2. destruct F2 as (Fx & Px & Sx & _).
    set (chunk := match fails with None => p | Some n => firstn n p end) in *.
    assert (Lc : 0 <= lenZ chunk <= lenZ p). { split; [unfold lenZ; lia|]. subst chunk. destruct fails; [|lia]. unfold lenZ. rewrite firstn_length. lia. }
    pose proof (s_good _ _ _ B1 _ _ Fx) as Lt.
    assert (C : (if append x then content (lfs s2) (inode x) ++ chunk else writeAt (content (lfs s2) (inode x)) (pos x) chunk) = content (lfs s2) (inode x) ++ chunk).
    { destruct (append x); [reflexivity|]. rewrite (Px eq_refl). apply writeAt_end. }
    unfold fileWrite in E. rewrite C in E. injection E as <- <-. rewrite !milled_app, A3, B3. cbn [lfs].
    assert (Ln : lenZ (content (lfs s2) (inode x) ++ chunk) = size s2 + lenZ chunk) by (rewrite Sx; unfold lenZ; rewrite app_length; lia).
    split; [apply sized_set; auto; lia|]. rewrite <- !and_assoc. split.
    2:{ intros n o' K. destruct fails as [m|].
        - change [OWrote chunk; OReturn (List.length chunk) true] with ([OWrote chunk] ++ [OReturn (List.length chunk) true]) in K. rewrite !app_assoc in K. apply app_inj_tail in K. destruct K; discriminate.
        - change [OWrote chunk; OReturn (List.length chunk) false] with ([OWrote chunk] ++ [OReturn (List.length chunk) false]) in K. rewrite !app_assoc in K. apply app_inj_tail in K. destruct K as [_ K].
          injection K as K. split; [symmetry; exact K|]. exists (inode x), (content (lfs s2) (inode x)). cbn [links]. split; [exact Fx|].
          unfold content at 1. cbn [contents]. now rewrite setContent_nth, Nat.eqb_refl by exact Lt. }
    split; [|reflexivity].
    unfold filled. cbn [lfile lfs links inode append pos size].
    assert (Cn : content (mkFS (links (lfs s2)) (setContent (contents (lfs s2)) (inode x) (content (lfs s2) (inode x) ++ chunk))) (inode x) = content (lfs s2) (inode x) ++ chunk)
      by (unfold content at 1; cbn [contents]; now rewrite setContent_nth, Nat.eqb_refl by exact Lt).
    rewrite Cn, int64_id, Ln by lia. split; [exact Fx|]. split; [|split; lia]. intro Ap. rewrite (Px Ap), app_length. reflexivity.
  Qed.
  Lemma step_sized : forall s e s' o G rem, sized (lfs s) G rem -> filled s -> spares name e -> step s e = (s', o) ->
    exists G', sized (lfs s') G' (rem ++ milled o) /\ filled s'.
  Proof.
    intros s e s' o G rem H Op Sp E. unfold step, LumberModel.step in E. destruct e as [p a a' fails|a|fails| |p|p c]; cbn [spares] in *.
    - destruct (Write_sized _ _ _ _ _ _ _ _ _ H Op E) as (A & B & -> & _). exists G. now rewrite app_nil_r.
    - destruct (LumberModel.rotate name backup s a) as [[s1 e1] o1] eqn:R. injection E as <- <-.
      destruct (rotate_sized _ _ _ _ _ _ _ H R) as (A & B & -> & _). exists G. now rewrite app_nil_r.
    - injection E as <- <-. exists G. cbn [milled flat_map]. rewrite app_nil_r. unfold close, filled in *. destruct (lfile s) eqn:Lf; cbn [fst lfile lfs]; [|rewrite Lf]; auto.
    - injection E as <- <-. exists G. cbn [milled flat_map]. rewrite app_nil_r. split; [exact H|exact I].
    - destruct (find (links (lfs s)) p) as [i|].
      + injection E as <- <-. exists G. split; [apply sized_unlink with (rem := rem); [exact H|]; intros q Q; apply in_or_app; auto|].
        unfold filled in *. cbn [lfile lfs links size]. destruct (lfile s); [|exact I]. rewrite find_unlink, streq_neq by congruence. exact Op.
      + injection E as <- <-. exists G. cbn [milled flat_map]. now rewrite app_nil_r.
    - destruct (compress gzip (lfs s) p (p ++ bs ".gz") c) as [f1 o1] eqn:Cm. injection E as <- <-. destruct Sp as [Sp Sq].
      destruct (compress_ok _ _ _ _ _ _ Cm Sp Sq) as (A & _ & C & _).
      assert (Fl : filled (mkLogger f1 (size s) (lfile s))).
      { unfold filled in *. cbn [lfile lfs size]. destruct (lfile s) as [x|]; [|exact I]. rewrite C. destruct Op as (O1 & O2). pose proof (s_good _ _ _ H _ _ O1) as Lt. rewrite A by exact Lt. auto. }
      unfold compress in Cm. destruct (find (links (lfs s)) p) as [i|].
      2:{ injection Cm as <- <-. exists G. cbn [milled flat_map lfs]. now rewrite app_nil_r. }
      cbn [lfs]. destruct c; apply pair_equal_spec in Cm; destruct Cm as [<- <-].
      + exists (List.length (contents (lfs s)) :: G). split; [|exact Fl]. eapply sized_unlink; [eapply sized_replace; [exact H|]|intros q Q; exact Q]. right.
        split; [exact Sq|]. split; [reflexivity|]. cbn. split; intros; rewrite ?in_app_iff; cbn; auto.
      + exists G. cbn [milled flat_map]. rewrite app_nil_r. auto.
      + exists (List.length (contents (lfs s)) :: G). split; [|exact Fl]. eapply sized_replace; [exact H|]. right. 
        split; [exact Sq|]. split; [reflexivity|]. cbn. split; intros; rewrite ?in_app_iff; cbn; auto.
      + exists G. split; [|exact Fl]. eapply sized_unlink; [exact H|]. intros. apply in_or_app. auto.
  Qed.
  Lemma run_sized : forall l s s' o G rem, sized (lfs s) G rem -> filled s -> Forall (spares name) l -> run s l = (s', o) ->
    exists G', sized (lfs s') G' (rem ++ milled o) /\ filled s'.
  Proof.
    induction l as [|e l IH]; intros s s' o G rem H Op Sp E.
    - injection E as <- <-. exists G. cbn. now rewrite !app_nil_r.
    - inversion Sp as [|? ? Sp1 Sp2]; subst. unfold run in E. cbn [LumberModel.run] in E. fold (step s e) in E. destruct (step s e) as [s1 o1] eqn:E1.
      destruct (LumberModel.run name max backup gzip s1 l) as [s2 o2] eqn:E2. injection E as <- <-.
      destruct (step_sized _ _ _ _ _ _ H Op Sp1 E1) as (G1 & J1 & C1). destruct (IH _ _ _ _ _ J1 C1 Sp2 E2) as (G2 & J2 & C2).
      exists G2. now rewrite milled_app, app_assoc.
  Qed.
End Lumber.

(** * Names *)
Lemma hasPrefix_iff : forall p s, hasPrefix s p = true <-> exists r, s = p ++ r.
Proof.
  induction p as [|x p IH]; intro s; cbn [hasPrefix].
  - split; [intros _; exists s; reflexivity|]. now destruct s.
  - destruct s as [|y s]; cbn [hasPrefix]; [split; [discriminate|intros [r E]; discriminate]|]. rewrite andb_true_iff, IH, Z.eqb_eq. split.
    + intros [-> [r ->]]. now exists r.
    + intros [r E]. injection E as -> ->. split; [reflexivity|now exists r].
Qed.
Lemma hasSuffix_iff : forall p s, hasSuffix s p = true <-> exists r, s = r ++ p.
Proof.
  intros p s. unfold hasSuffix. rewrite hasPrefix_iff. split; intros [r E].
  - exists (rev r). apply (f_equal (@rev Z)) in E. rewrite rev_app_distr, !rev_involutive in E. exact E.
  - exists (rev r). now rewrite E, rev_app_distr.
Qed.
Lemma Ext_split : forall s, s = stem s ++ Ext s.
Proof.
  assert (H : forall s, exists p, s = p ++ Ext s).
  { induction s as [|c s [p IH]]; [now exists []|]. cbn [Ext]. destruct (Ext s) as [|d e] eqn:E.
    - destruct (c =? 46); [now exists []|]. exists (c :: s). now rewrite app_nil_r.
    - exists (c :: p). rewrite IH at 1. reflexivity. }
  intro s. destruct (H s) as [p E]. unfold stem. set (e := Ext s) in *. clearbody e. subst s. rewrite app_length, Nat.add_sub, firstn_app, Nat.sub_diag, firstn_all. cbn [firstn]. now rewrite app_nil_r.
Qed.

Lemma timeFromName_form : forall parse n prefix ext,
  timeFromName parse n prefix ext =
  (if negb (hasPrefix n prefix) then Rejected else if negb (hasSuffix n ext) then Rejected
   else if lenZ prefix + lenZ ext <=? lenZ n then
     match parse (firstn (List.length n - List.length ext - List.length prefix) (skipn (List.length prefix) n)) with None => Rejected | Some t => Time t end
   else Panics).
Proof.
  intros. unfold timeFromName. destruct (hasPrefix n prefix); [|reflexivity]. destruct (hasSuffix n ext); [|reflexivity]. cbn [negb].
  replace (lenZ prefix <=? lenZ n - lenZ ext) with (lenZ prefix + lenZ ext <=? lenZ n) by (destruct (Z.leb_spec (lenZ prefix + lenZ ext) (lenZ n)); symmetry; [apply Z.leb_le|apply Z.leb_gt]; lia).
  destruct (lenZ prefix + lenZ ext <=? lenZ n) eqn:L; [|reflexivity]. apply Z.leb_le in L. unfold lenZ in *.
  replace (Z.to_nat (Z.of_nat (List.length n) - Z.of_nat (List.length ext) - Z.of_nat (List.length prefix))) with (List.length n - List.length ext - List.length prefix)%nat by lia.
  reflexivity.
Qed.
Lemma middle : forall (p q r t e : bytes), p ++ r = q ++ e -> (List.length p + List.length e <= List.length (p ++ r))%nat ->
  t = firstn (List.length (p ++ r) - List.length e - List.length p) (skipn (List.length p) (p ++ r)) -> p ++ r = p ++ t ++ e.
Proof.
  intros p q r t e E L T. f_equal. rewrite skipn_app, skipn_all2, Nat.sub_diag in T by lia. cbn [app skipn] in T. rewrite app_length in *.
  pose proof E as E'. apply (f_equal (skipn (List.length p))) in E'. pose proof (f_equal (@List.length Z) E) as Ln. rewrite !app_length in Ln.
  rewrite !skipn_app, skipn_all2, Nat.sub_diag in E' by lia. cbn [app skipn] in E'. replace (List.length p - List.length q)%nat with 0%nat in E' by lia. cbn [skipn] in E'.
  assert (Hm : (List.length p + List.length r - List.length e - List.length p)%nat = List.length (skipn (List.length p) q)) by (rewrite skipn_length; lia).
  rewrite Hm in T. set (x := skipn (List.length p) q) in *. clearbody x. subst t. rewrite E'. rewrite firstn_app, firstn_all, Nat.sub_diag. cbn [firstn]. now rewrite app_nil_r.
Qed.
Lemma timeFromName_time : forall parse n prefix ext t,
  timeFromName parse n prefix ext = Time t <-> exists ts, n = prefix ++ ts ++ ext /\ parse ts = Some t.
Proof.
  intros. rewrite timeFromName_form. split.
  - destruct (hasPrefix n prefix) eqn:P; [|discriminate]. destruct (hasSuffix n ext) eqn:Q; [|discriminate]. cbn [negb].
    destruct (lenZ prefix + lenZ ext <=? lenZ n) eqn:L; [|discriminate]. apply Z.leb_le in L. unfold lenZ in L.
    apply hasPrefix_iff in P. destruct P as [r ->]. apply hasSuffix_iff in Q. destruct Q as [q Q].
    set (ts := firstn _ _). destruct (parse ts) eqn:Ps; [|discriminate]. intro K. injection K as <-. exists ts. split; [|exact Ps]. eapply middle; [exact Q|lia|reflexivity].
  - intros (ts & -> & Ps). rewrite (proj2 (hasPrefix_iff _ _)) by (eexists; reflexivity). rewrite (proj2 (hasSuffix_iff _ _)) by (exists (prefix ++ ts); now rewrite app_assoc).
    cbn [negb]. rewrite (proj2 (Z.leb_le _ _)) by (unfold lenZ; rewrite !app_length; lia).
    rewrite skipn_app, skipn_all2, Nat.sub_diag by lia. cbn [app skipn]. rewrite !app_length. replace (_ - _ - _)%nat with (List.length ts) by lia.
    rewrite firstn_app, firstn_all, Nat.sub_diag. cbn [firstn]. now rewrite app_nil_r, Ps.
Qed.
Lemma timeFromName_panics : forall parse n prefix ext,
  timeFromName parse n prefix ext = Panics <-> (exists r, n = prefix ++ r) /\ (exists r, n = r ++ ext) /\ lenZ n < lenZ prefix + lenZ ext.
Proof.
  intros. rewrite timeFromName_form, <- hasPrefix_iff, <- hasSuffix_iff. destruct (hasPrefix n prefix); [|split; [discriminate|intros [K _]; discriminate]].
  destruct (hasSuffix n ext); [|split; [discriminate|intros (_ & K & _); discriminate]]. cbn [negb]. destruct (Z.leb_spec (lenZ prefix + lenZ ext) (lenZ n)).
  - split; [|intros (_ & _ & K); lia]. destruct (parse _); discriminate.
  - tauto.
Qed.
Lemma overlap : forall (p w e n : bytes) r, n = p ++ r -> n = w ++ e -> (List.length n < List.length p + List.length e)%nat ->
  exists v, (0 < List.length v)%nat /\ (exists x, p = x ++ v \/ v = x ++ p) /\ (exists y, e = v ++ y).
Proof.
  intros p w e n r E1 E2 L. subst n. 
  assert (Lw : (List.length w < List.length p)%nat). { pose proof (f_equal (@List.length Z) E2) as K. rewrite !app_length in *. lia. }
  exists (skipn (List.length w) p). split; [rewrite skipn_length; lia|]. split.
  - exists (firstn (List.length w) p). left. symmetry. apply firstn_skipn.
  - exists r. apply (f_equal (skipn (List.length w))) in E2. rewrite !skipn_app, skipn_all, Nat.sub_diag in E2. cbn [app skipn] in E2.
    replace (List.length w - List.length p)%nat with 0%nat in E2 by lia. cbn [skipn] in E2. now symmetry.
Qed.
Lemma dash_no_panic : forall parse n p e, ~ In 45 e -> timeFromName parse n (p ++ bs "-") e <> Panics.
Proof.
  intros parse n p e No K. apply timeFromName_panics in K. destruct K as ([r E1] & [w E2] & L). unfold lenZ in L.
  destruct (overlap _ _ _ _ _ E1 E2 ltac:(lia)) as (v & Lv & [x Ex] & [y Ey]). apply No. rewrite Ey. apply in_or_app. left.
  assert (D : exists a, v = a ++ [45]).
  { change (bs "-") with [45] in Ex. destruct Ex as [Ex|Ex]; [|exists (x ++ p); now rewrite <- app_assoc].
    destruct (rev v) as [|z rv] eqn:R; [apply (f_equal (@rev Z)) in R; rewrite rev_involutive in R; subst v; cbn in Lv; lia|].
    apply (f_equal (@rev Z)) in R. rewrite rev_involutive in R. cbn [rev] in R. subst v. rewrite app_assoc in Ex. apply app_inj_tail in Ex. destruct Ex as [_ <-]. now exists (rev rv). }
  destruct D as [a ->]. apply in_or_app. right. now left.
Qed.
Lemma backup_prefix : forall filename ts, backupBase filename ts = fst (prefixAndExt filename) ++ ts ++ snd (prefixAndExt filename).
Proof. intros. unfold backupBase, prefixAndExt. cbn [fst snd]. now rewrite <- app_assoc. Qed.
Lemma backup_gz : forall filename ts, backupBase filename ts ++ bs ".gz" = fst (prefixAndExt filename) ++ ts ++ snd (prefixAndExt filename) ++ bs ".gz".
Proof. intros. rewrite backup_prefix, <- !app_assoc. reflexivity. Qed.
Lemma backup_longer : forall filename ts, (List.length filename < List.length (backupBase filename ts))%nat.
Proof. intros. rewrite (Ext_split filename) at 1. unfold backupBase. rewrite !app_length. cbn. lia. Qed.
Lemma backup_inj : forall filename ts ts', backupBase filename ts = backupBase filename ts' -> ts = ts'.
Proof. intros filename ts ts' E. rewrite !backup_prefix in E. apply app_inv_head in E. now apply app_inv_tail in E. Qed.

(** * The mill *)
Section Mill.
  Variable parse : bytes -> option Z.
  Notation dated filename n := (exists t, is_backup parse filename n t).

  Lemma name_time : forall filename n t, is_backup parse filename n t <->
    timeFromName parse n (fst (prefixAndExt filename)) (snd (prefixAndExt filename)) = Time t \/
    timeFromName parse n (fst (prefixAndExt filename)) (snd (prefixAndExt filename) ++ bs ".gz") = Time t.
  Proof.
    intros. rewrite !timeFromName_time. unfold is_backup. split.
    - intros (ts & P & [-> | ->]); [left|right]; exists ts; (split; [|exact P]); [apply backup_prefix|apply backup_gz].
    - intros [(ts & -> & P)|(ts & -> & P)]; exists ts; (split; [exact P|]); [left; symmetry; apply backup_prefix|right; symmetry; apply backup_gz].
  Qed.
  Lemma backupsIn_ok : forall filename files l, backupsIn parse filename files = Some l ->
    Forall (fun x => is_backup parse filename (Name x) (timestamp x)) l /\ (forall n, In n (map Name l) <-> In (n, false) files /\ dated filename n) /\
    (NoDup (map fst files) -> NoDup (map Name l)).
  Proof.
    intros filename. induction files as [|[n d] r IH]; intros l E.
    - injection E as <-. split; [constructor|]. split; [cbn; tauto|intros _; constructor].
    - cbn [backupsIn] in E. destruct d.
      { destruct (IH _ E) as (A & B & C). split; [exact A|]. split; [|intro N; inversion N; auto]. intro m. rewrite B. cbn [In]. split; [tauto|]. intros [[K|K] D]; [discriminate K|tauto]. }
      destruct (prefixAndExt filename) as [p e] eqn:PE.
      assert (Nt : forall t, is_backup parse filename n t <-> timeFromName parse n p e = Time t \/ timeFromName parse n p (e ++ bs ".gz") = Time t) by (intro t; rewrite name_time, PE; reflexivity).
      assert (Yes : forall t l', is_backup parse filename n t -> backupsIn parse filename r = Some l' -> l = mkInfo t n :: l' ->
        Forall (fun x => is_backup parse filename (Name x) (timestamp x)) l /\ (forall m, In m (map Name l) <-> In (m, false) ((n, false) :: r) /\ dated filename m) /\
        (NoDup (map fst ((n, false) :: r)) -> NoDup (map Name l))).
      { intros t l' Bk E' ->. destruct (IH _ E') as (A & B & C). split; [constructor; auto|]. split.
        - intro m. cbn [map In Name]. rewrite B. split.
          + intros [<-|[K D]]; [split; [now left|eauto]|auto].
          + intros [[K|K] D]; [injection K as ->; auto|auto].
        - cbn [map fst Name]. intro N. inversion N as [|? ? N1 N2]; subst. constructor; [|auto]. intro K. apply B in K. destruct K as [K _]. apply N1. apply in_map_iff. now exists (n, false). }
      assert (Nope : (forall t, ~ is_backup parse filename n t) -> backupsIn parse filename r = Some l ->
        Forall (fun x => is_backup parse filename (Name x) (timestamp x)) l /\ (forall m, In m (map Name l) <-> In (m, false) ((n, false) :: r) /\ dated filename m) /\
        (NoDup (map fst ((n, false) :: r)) -> NoDup (map Name l))).
      { intros No E'. destruct (IH _ E') as (A & B & C). split; [exact A|]. split; [|intro N; inversion N; auto]. intro m. rewrite B. cbn [In]. split; [tauto|].
        intros [[K|K] D]; [injection K as ->; destruct D as [t D]; destruct (No t D)|tauto]. }
      destruct (timeFromName parse n p e) as [| |t] eqn:T1; [discriminate| |].
      + destruct (timeFromName parse n p (e ++ bs ".gz")) as [| |t] eqn:T2; [discriminate| |].
        * apply Nope; [|exact E]. intros t K. apply Nt in K. destruct K; discriminate.
        * destruct (backupsIn parse filename r) as [l'|]; [|discriminate]. injection E as <-. eapply Yes; [apply Nt; right; reflexivity|reflexivity|reflexivity].
      + destruct (backupsIn parse filename r) as [l'|]; [|discriminate]. injection E as <-. eapply Yes; [apply Nt; left; reflexivity|reflexivity|reflexivity].
  Qed.
  Lemma backupsIn_total : forall filename files, ~ In 45 (Ext filename) -> exists l, backupsIn parse filename files = Some l.
  Proof.
    intros filename files No. induction files as [|[n d] r [l IH]]; [now exists []|]. cbn [backupsIn]. rewrite IH. destruct d; [now exists l|]. unfold prefixAndExt.
    assert (No' : ~ In 45 (Ext filename ++ bs ".gz")). { intro K. apply in_app_or in K. destruct K as [K|K]; [auto|]. vm_compute in K. intuition discriminate. }
    destruct (timeFromName parse n (stem filename ++ bs "-") (Ext filename)) eqn:T1; [destruct (dash_no_panic _ _ _ _ No T1)| |eexists; reflexivity].
    destruct (timeFromName parse n (stem filename ++ bs "-") (Ext filename ++ bs ".gz")) eqn:T2; [destruct (dash_no_panic _ _ _ _ No' T2)| |]; eexists; reflexivity.
  Qed.
End Mill.

Lemma different_set : forall a b, incl a b -> different a <= different b.
Proof.
  intros a b I. unfold different, lenZ. apply inj_le. apply NoDup_incl_length; [apply NoDup_nodup|]. intros x X. apply nodup_In. apply I. apply nodup_In in X. exact X.
Qed.
Lemma different_nodup : forall a, NoDup a -> different a = lenZ a.
Proof. intros a N. unfold different. now rewrite nodup_fixed_point. Qed.
Lemma member_In : forall x l, member x l = true <-> In x l.
Proof.
  intros. unfold member. rewrite existsb_exists. split.
  - intros (y & I & E). apply streq_eq in E. now subst y.
  - intro I. exists x. split; [exact I|apply streq_refl].
Qed.
Definition count (k : nat) (files : list logInfo) (pres : list bytes) : Z := different (map (fun f => uncompressedName (Name f)) (firstn k files) ++ pres).
Lemma count_mono : forall j k files pres, (j <= k)%nat -> count j files pres <= count k files pres.
Proof.
  intros. unfold count. apply different_set. intros x X. apply in_or_app. apply in_app_or in X. destruct X as [X|X]; [left|now right].
  apply in_map_iff in X. destruct X as (f & <- & F). apply in_map with (f := fun f => uncompressedName (Name f)). rewrite <- (firstn_skipn j (firstn k files)). apply in_or_app. left. rewrite firstn_firstn. now rewrite Nat.min_l.
Qed.
Lemma byCount_split : forall M files pres, NoDup pres -> exists k, (k <= List.length files)%nat /\ byCount M pres files = (firstn k files, skipn k files) /\
  (forall j, (j < k)%nat -> count (S j) files pres <= M) /\ (forall j, (k <= j < List.length files)%nat -> M < count (S j) files pres).
Proof.
  intro M.
  assert (All : forall files pres, M < lenZ pres -> byCount M pres files = ([], files)).
  { induction files as [|f r IH]; intros pres L; [reflexivity|]. cbn [byCount]. set (pres' := if member _ _ then _ else _).
    assert (L' : M < lenZ pres') by (subst pres'; unfold lenZ in *; destruct (member _ _); cbn [List.length]; lia). rewrite (IH _ L'), (proj2 (Z.ltb_lt _ _) L'). reflexivity. }
  induction files as [|f r IH]; intros pres N. { exists 0%nat. cbn. split; [lia|]. split; [reflexivity|]. split; intros; lia. }
  cbn [byCount]. set (fn := uncompressedName (Name f)). set (pres' := if member fn pres then pres else fn :: pres).
  assert (N' : NoDup pres'). { subst pres'. destruct (member fn pres) eqn:Mb; [exact N|]. constructor; [|exact N]. intro I. apply member_In in I. congruence. }
  assert (Set' : forall x, In x pres' <-> fn = x \/ In x pres).
  { intro x. subst pres'. destruct (member fn pres) eqn:Mb; cbn; [|tauto]. apply member_In in Mb. split; [auto|]. intros [<-|I]; auto. }
  assert (Cn : forall j, count (S j) (f :: r) pres = count j r pres').
  { intro j. unfold count. cbn [firstn map app]. fold fn. apply Z.le_antisymm; apply different_set; intros x X.
    - apply in_or_app. destruct X as [<-|X]; [right; apply Set'; now left|]. apply in_app_or in X. destruct X as [X|X]; [now left|]. right. apply Set'. now right.
    - apply in_app_or in X. destruct X as [X|X]; [right; apply in_or_app; now left|]. apply Set' in X. destruct X as [<-|X]; [now left|]. right. apply in_or_app. now right. }
  assert (C0 : count 0 r pres' = lenZ pres') by (unfold count; cbn [firstn map app]; now apply different_nodup).
  destruct (M <? lenZ pres') eqn:L.
  - apply Z.ltb_lt in L. rewrite (All _ _ L). exists 0%nat. cbn [firstn skipn List.length]. split; [lia|]. split; [reflexivity|]. split; [intros; lia|].
    intros j _. rewrite Cn. pose proof (count_mono 0 j r pres' ltac:(lia)). lia.
  - apply Z.ltb_ge in L. destruct (IH pres' N') as (k & Hk & E & A & B). rewrite E. exists (S k). cbn [firstn skipn List.length]. split; [lia|]. split; [reflexivity|]. split.
    + intros j Hj. rewrite Cn. destruct j as [|j]; [lia|]. apply A. lia.
    + intros j Hj. rewrite Cn. destruct j as [|j]; [lia|]. apply B. lia.
Qed.
