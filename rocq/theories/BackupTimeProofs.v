(** Lemmas for BackupTimeProps.v. *)
From Coq Require Import Permutation Sorted.
From Verif Require Import Base RotationModel RotationSpec RotationProofs LumberModel LumberSpec LumberProofs TimeNameModel TimeNameSpec TimeNameProofs BackupTimeModel.

(** * The time of a file in the list of backups *)
Definition timeOfName (parse : bytes -> option Z) (filename n : bytes) : parsed :=
  match timeFromName parse n (fst (prefixAndExt filename)) (snd (prefixAndExt filename)) with
  | Rejected => timeFromName parse n (fst (prefixAndExt filename)) (snd (prefixAndExt filename) ++ bs ".gz")
  | r => r
  end.
Lemma backupsIn_times : forall parse filename files l, backupsIn parse filename files = Some l ->
  Forall (fun x => timeOfName parse filename (Name x) = Time (timestamp x)) l /\
  (forall n t, In (n, false) files -> timeOfName parse filename n = Time t -> In (mkInfo t n) l).
Proof.
  intros parse filename. induction files as [|(n & d) r IH]; intros l H; cbn [backupsIn] in H.
  - injection H as <-. split; [constructor|]. intros n t [].
  - destruct d.
    { destruct (IH _ H) as (A & B). split; [exact A|]. intros n' t [E|I]; [discriminate E|]. now apply B. }
    assert (T : timeOfName parse filename n = match timeFromName parse n (stem filename ++ bs "-") (Ext filename) with
      | Rejected => timeFromName parse n (stem filename ++ bs "-") (Ext filename ++ bs ".gz") | r => r end) by reflexivity.
    unfold prefixAndExt in H. destruct (timeFromName parse n (stem filename ++ bs "-") (Ext filename)) as [| |t] eqn:E; [discriminate H| |].
    + destruct (timeFromName parse n (stem filename ++ bs "-") (Ext filename ++ bs ".gz")) as [| |t] eqn:E'; [discriminate H| |].
      * destruct (IH _ H) as (A & B). split; [exact A|]. intros n' t [Q|I] X; [|now apply B]. injection Q as <-. rewrite T in X. discriminate X.
      * destruct (backupsIn parse filename r) as [l'|] eqn:R; [|discriminate H]. injection H as <-. destruct (IH _ eq_refl) as (A & B). split.
        { constructor; [exact T|exact A]. }
        intros n' t' [Q|I] X; [|right; now apply B]. injection Q as <-. rewrite T in X. injection X as <-. now left.
    + destruct (backupsIn parse filename r) as [l'|] eqn:R; [|discriminate H]. injection H as <-. destruct (IH _ eq_refl) as (A & B). split.
      { constructor; [exact T|exact A]. }
      intros n' t' [Q|I] X; [|right; now apply B]. injection Q as <-. rewrite T in X. injection X as <-. now left.
Qed.
Lemma old_times : forall parse sort filename files old, sorts sort -> oldLogFiles parse sort filename files = Some old ->
  Forall (fun x => timeOfName parse filename (Name x) = Time (timestamp x)) old /\
  (forall n t, In (n, false) files -> timeOfName parse filename n = Time t -> In (mkInfo t n) old).
Proof.
  intros parse sort filename files old S H. unfold oldLogFiles in H. destruct (backupsIn parse filename files) as [l|] eqn:B; [|discriminate H]. injection H as <-.
  destruct (backupsIn_times _ _ _ _ B) as (A & C). destruct (S l) as [P _]. split.
  - rewrite Forall_forall in *. intros x X. apply A. eapply Permutation_in; eassumption.
  - intros n t I T. eapply Permutation_in; [apply Permutation_sym; exact P|]. now apply C.
Qed.
Lemma backup_time : forall parse filename ts t, parse ts = Some t -> timeOfName parse filename (backupBase filename ts) = Time t.
Proof.
  intros parse filename ts t P. unfold timeOfName. replace (timeFromName parse (backupBase filename ts) (fst (prefixAndExt filename)) (snd (prefixAndExt filename))) with (Time t); [reflexivity|].
  symmetry. apply timeFromName_time. exists ts. split; [apply backup_prefix|exact P].
Qed.

(** * Extensions *)
Lemma Ext_dots : forall s, Ext s = [] \/ exists r, Ext s = 46 :: r /\ ~ In 46 r.
Proof.
  induction s as [|c r IH]; cbn [Ext]; [now left|]. destruct (Ext r) as [|e l] eqn:E.
  - destruct (Z.eqb_spec c 46) as [->|N]; [|now left]. right. exists r. split; [reflexivity|]. intro I.
    clear IH. induction r as [|d r IH]; [destruct I|]. cbn [Ext] in E. destruct (Ext r); [|discriminate E]. destruct (Z.eqb_spec d 46) as [->|N]; [discriminate E|].
    destruct I as [->|I]; [congruence|]. now apply IH.
  - right. destruct IH as [IH|(q & IH & N)]; [discriminate IH|]. exists q. split; [exact IH|exact N].
Qed.
(** What ends in .gz and in an extension, has .gz for extension *)
Lemma Ext_gz : forall filename p q, p ++ bs ".gz" = q ++ Ext filename -> Ext filename = [] \/ Ext filename = bs ".gz".
Proof.
  intros filename p q E. destruct (Ext_dots filename) as [->|(r & X & N)]; [now left|]. right. rewrite X in *. clear X filename.
  assert (E' : rev (bs ".gz") ++ rev p = rev (46 :: r) ++ rev q) by (rewrite <- !rev_app_distr; now f_equal). change (rev (bs ".gz")) with [122; 103; 46] in E'.
  assert (L : exists s, rev (46 :: r) = s) by eauto. destruct L as (s & L). rewrite L in E'.
  assert (LL : rev s = 46 :: r) by (rewrite <- L; apply rev_involutive).
  destruct s as [|a [|b [|c s]]].
  - discriminate LL.
  - cbn in E'. injection E' as <- _. discriminate LL.
  - cbn in E'. injection E' as <- <- _. discriminate LL.
  - cbn in E'. injection E' as <- <- <- _. cbn [rev] in LL. destruct (rev s) as [|d w].
    + cbn in LL. injection LL as <-. reflexivity.
    + cbn in LL. injection LL as _ LL. destruct N. rewrite <- LL. apply in_or_app. left. apply in_or_app. left. apply in_or_app. right. now left.
Qed.

(** * Which names a step of the logger makes *)
Section Links.
  Variables (name : bytes) (max : Z) (backup gzip : bytes -> bytes).
  Definition made (f f' : FS) (new : bytes -> Prop) : Prop := forall q, find (links f') q <> None -> find (links f) q <> None \/ new q.
  Lemma made_link : forall l p i q, find (link l p i) q <> None -> find l q <> None \/ q = p.
  Proof.
    intros l p i q H. unfold link in H. cbn [find] in H. destruct (streq p q) eqn:E; [right; symmetry; now apply streq_eq in E|]. left.
    intro F. apply H. clear H E. unfold unlink. induction l as [|(x & j) l IH]; [reflexivity|]. cbn [find filter fst] in *. destruct (streq x q) eqn:X; [discriminate F|].
    destruct (negb (streq x p)); [cbn [find]; rewrite X|]; now apply IH.
  Qed.
  Lemma made_unlink : forall l p q, find (unlink l p) q <> None -> find l q <> None.
  Proof.
    intros l p q H F. apply H. clear H. unfold unlink. induction l as [|(x & j) l IH]; [reflexivity|]. cbn [find filter fst] in *. destruct (streq x q) eqn:X; [discriminate F|].
    destruct (negb (streq x p)); [cbn [find]; rewrite X|]; now apply IH.
  Qed.
  Lemma made_create : forall f, made f (fst (createTrunc f name)) (fun q => q = name).
  Proof.
    intros f q H. unfold createTrunc in H. destruct (find (links f) name); cbn [fst links] in H; [now left|]. apply made_link in H. tauto.
  Qed.
  Lemma made_trans : forall f g h new, made f g new -> made g h new -> made f h new.
  Proof. intros f g h new A B q H. destruct (B q H) as [K|K]; [now apply A|now right]. Qed.
  Lemma made_weak : forall f g (a b : bytes -> Prop), (forall q, a q -> b q) -> made f g a -> made f g b.
  Proof. intros f g a b W A q H. destruct (A q H); auto. Qed.
  Lemma made_refl : forall f new, made f f new.
  Proof. intros f new q H. now left. Qed.
  Lemma made_openNew : forall s a s' err o, openNew name backup s a = (s', err, o) -> made (lfs s) (lfs s') (fun q => q = name \/ q = backup (aTime a)).
  Proof.
    intros s a s' err o H. unfold openNew in H. set (new := fun q => q = name \/ q = backup (aTime a)).
    assert (C : forall f g, made f g (fun q => q = name) -> made f g new) by (intros f g; apply made_weak; unfold new; auto).
    destruct (aMkdir a); [injection H as <- <- <-; apply made_refl|].
    destruct (find (links (lfs s)) name) as [i|].
    2:{ destruct (aCreate a); [injection H as <- <- <-; apply made_refl|]. pose proof (made_create (lfs s)) as M. destruct (createTrunc (lfs s) name) as [f x]. injection H as <- <- <-. apply C. exact M. }
    destruct (aStatNew a).
    { destruct (aCreate a); [injection H as <- <- <-; apply made_refl|]. pose proof (made_create (lfs s)) as M. destruct (createTrunc (lfs s) name) as [f x]. injection H as <- <- <-. apply C. exact M. }
    destruct (aRename a); [injection H as <- <- <-; apply made_refl|]. cbv zeta in H.
    set (f1 := mkFS (link (unlink (links (lfs s)) name) (backup (aTime a)) i) (contents (lfs s))) in H.
    assert (M1 : made (lfs s) f1 new).
    { intros q Q. unfold f1 in Q. cbn [links] in Q. apply made_link in Q. destruct Q as [Q|Q]; [left; now apply made_unlink in Q|right; unfold new; auto]. }
    destruct (aChownOpen a); [injection H as <- <- <-; exact M1|]. pose proof (made_create f1) as M2. destruct (createTrunc f1 name) as [f2 x2]. cbn [fst] in M2.
    assert (M12 : made (lfs s) f2 new) by (eapply made_trans; [exact M1|apply C; exact M2]).
    destruct (aChown a); [injection H as <- <- <-; exact M12|]. destruct (aCreate a); [injection H as <- <- <-; exact M12|].
    pose proof (made_create f2) as M3. destruct (createTrunc f2 name) as [f3 x3]. injection H as <- <- <-. eapply made_trans; [exact M12|apply C; exact M3].
  Qed.
  Lemma made_rotate : forall s a s' err o, rotate name backup s a = (s', err, o) -> made (lfs s) (lfs s') (fun q => q = name \/ q = backup (aTime a)).
  Proof.
    intros s a s' err o H. unfold rotate, close in H. destruct (lfile s).
    - destruct (aClose a); [injection H as <- <- <-; apply made_refl|]. now apply made_openNew in H.
    - now apply made_openNew in H.
  Qed.
  Lemma made_openExisting : forall s a n s' err o, openExistingOrNew name max backup s a n = (s', err, o) -> made (lfs s) (lfs s') (fun q => q = name \/ q = backup (aTime a)).
  Proof.
    intros s a n s' err o H. unfold openExistingOrNew in H. destruct (find (links (lfs s)) name) as [i|].
    - destruct (aStat a); [injection H as <- <- <-; apply made_refl|]. cbv zeta in H. destruct (max <=? _); [now apply made_rotate in H|].
      destruct (aAppend a); [now apply made_openNew in H|]. injection H as <- <- <-. apply made_refl.
    - destruct (aStat a); [injection H as <- <- <-; apply made_refl|]. now apply made_openNew in H.
  Qed.
  Lemma made_step : forall s e, made (lfs s) (lfs (fst (step name max backup gzip s e)))
    (fun q => q = name \/ (exists t, In t (times e) /\ q = backup t) \/ exists p c, e = ECompress p c /\ q = p ++ bs ".gz").
  Proof.
    intros s e. set (new := fun q => _). destruct e as [p a a' fails|a|fails| |p|p c]; cbn [step].
    - assert (W : forall f g t, In t [aTime a; aTime a'] -> made f g (fun q => q = name \/ q = backup t) -> made f g new).
      { intros f g t I. apply made_weak. intros q [Q|Q]; [now left|]. right. left. exists t. split; [exact I|exact Q]. }
      unfold Write. destruct (max <? lenZ p); [apply made_refl|].
      assert (M : forall s1 err o, match lfile s with None => openExistingOrNew name max backup s a (lenZ p) | Some _ => (s, false, []) end = (s1, err, o) -> made (lfs s) (lfs s1) new).
      { intros s1 err o E. destruct (lfile s); [injection E as <- <- <-; apply made_refl|]. apply made_openExisting in E. eapply W; [|exact E]. now left. }
      destruct (match lfile s with None => _ | Some _ => _ end) as [[s1 err] o]. specialize (M _ _ _ eq_refl). destruct err; [exact M|].
      assert (M' : forall s2 err o, (if max <? int64 (size s1 + lenZ p) then rotate name backup s1 a' else (s1, false, [])) = (s2, err, o) -> made (lfs s1) (lfs s2) new).
      { intros s2 err o' E. destruct (max <? _); [|injection E as <- <- <-; apply made_refl]. apply made_rotate in E. eapply W; [|exact E]. right. now left. }
      destruct (if max <? int64 (size s1 + lenZ p) then _ else _) as [[s2 err] o']. specialize (M' _ _ _ eq_refl).
      pose proof (made_trans _ _ _ _ M M') as MM. destruct err; [exact MM|]. destruct (lfile s2) as [x|]; [|exact MM].
      unfold fileWrite. cbn [fst lfs]. exact MM.
    - assert (M : forall s' err o, rotate name backup s a = (s', err, o) -> made (lfs s) (lfs s') new).
      { intros s' err o E. apply made_rotate in E. eapply made_weak; [|exact E]. intros q [Q|Q]; [now left|]. right. left. exists (aTime a). split; [now left|exact Q]. }
      destruct (rotate name backup s a) as [[s' err] o]. exact (M _ _ _ eq_refl).
    - unfold close. destruct (lfile s); apply made_refl.
    - apply made_refl.
    - destruct (find (links (lfs s)) p); [|apply made_refl]. intros q Q. left. now apply made_unlink in Q.
    - unfold compress. destruct (find (links (lfs s)) p) as [i|]; [|apply made_refl]. unfold replace.
      assert (G : forall q j, find (link (links (lfs s)) (p ++ bs ".gz") j) q <> None -> find (links (lfs s)) q <> None \/ new q).
      { intros q j Q. apply made_link in Q. destruct Q as [Q|Q]; [now left|]. right. right. right. eauto. }
      destruct c; cbn [fst lfs]; intros q Q; cbn [links] in Q.
      + apply made_unlink in Q. eapply G. exact Q.
      + now left.
      + eapply G. exact Q.
      + left. now apply made_unlink in Q.
  Qed.
  (** The names of backups are new if they are not among the files at first, nor those of earlier backups, nor made by the mill *)
  Lemma new_names_from : forall l s, (forall t, backup t <> name) ->
    (forall e t, In e l -> In t (times e) -> find (links (lfs s)) (backup t) = None) ->
    (forall p c e t, In (ECompress p c) l -> In e l -> In t (times e) -> p ++ bs ".gz" <> backup t) ->
    (forall l1 e1 l2 e2 l3 t1 t2, l = l1 ++ e1 :: l2 ++ e2 :: l3 -> In t1 (times e1) -> In t2 (times e2) -> backup t1 <> backup t2) ->
    new_names name max backup gzip s l.
  Proof.
    induction l as [|e l IH]; intros s N F G D; [exact I|]. cbn [new_names]. split; [intros t T; apply (F e t); [now left|exact T]|]. apply IH; [exact N| | |].
    - intros e2 t2 I2 T2. destruct (find (links (lfs (fst (step name max backup gzip s e)))) (backup t2)) eqn:Q; [|reflexivity]. exfalso.
      destruct (made_step s e (backup t2)) as [K|[K|[(t & T & K)|(p & c & -> & K)]]]; [rewrite Q; discriminate| | | |].
      + apply K. apply (F e2 t2); [now right|exact T2].
      + exact (N _ K).
      + apply in_split in I2. destruct I2 as (l2 & l3 & ->). apply (D [] e l2 e2 l3 t t2); auto.
      + apply (G p c e2 t2); [now left|now right|exact T2|congruence].
    - intros p c e2 t I J. apply (G p c e2 t); now right.
    - intros l1 e1 l2 e2 l3 t1 t2 E. apply (D (e :: l1) e1 l2 e2 l3 t1 t2). now rewrite E.
  Qed.
End Links.
