(** Lemmas for C126. *)
From Verif Require Import Base ViewerModel ViewerSpec.

Lemma strip_some : forall p s r, stripPrefix p s = Some r <-> s = p ++ r.
Proof.
  induction p as [|a p IH]; intros [|b s] r; cbn; try (split; congruence).
  destruct (Z.eqb_spec a b) as [->|N].
  - rewrite IH. split; congruence.
  - split; [discriminate|]. intros [= E _]. congruence.
Qed.
Lemma strip_none : forall p s, stripPrefix p s = None <-> forall r, s <> p ++ r.
Proof.
  intros p s. destruct (stripPrefix p s) as [r|] eqn:E.
  - apply strip_some in E. split; [discriminate|]. intros H. now elim (H r).
  - split; auto. intros _ r H. apply strip_some in H. congruence.
Qed.

Lemma replaced_cons : forall p c a s r, (forall b, a :: s <> p ++ b) -> replaced p c s r -> replaced p c (a :: s) (a :: r).
Proof.
  intros p c a s r N H. destruct H as [s H|x b r F H].
  - apply r_none. intros [|y a'] b E; [now apply (N b)|]. injection E as -> E. now apply (H a' b).
  - apply (r_first p c (a :: x) b r); auto. intros [|y a'] b' E.
    + exfalso. now apply (N b').
    + cbn in E. injection E as E1 E. cbn. apply le_n_S. now apply (F a' b').
Qed.

Lemma replaceAll_replaced : forall fuel p c s, p <> [] -> (List.length s < fuel)%nat -> replaced p c s (replaceAll fuel p c s).
Proof.
  induction fuel as [|fuel IH]; intros p c s P L; [lia|]. cbn. destruct (stripPrefix p s) as [rest|] eqn:E.
  - apply strip_some in E. subst s. apply (r_first p c [] rest).
    + intros. cbn. lia.
    + apply IH; auto. rewrite app_length in L. destruct p; [congruence|cbn in L; lia].
  - rewrite strip_none in E. destruct s as [|a s].
    + apply r_none. intros x b H. destruct x, p; try congruence; discriminate H.
    + apply replaced_cons; auto. apply IH; auto. cbn in L. lia.
Qed.
Lemma Replace_replaced : forall s p c, p <> [] -> replaced p c s (Replace s p c).
Proof. intros. apply replaceAll_replaced; auto. Qed.

Lemma replaced_unique : forall p c s r, replaced p c s r -> forall r', replaced p c s r' -> r = r'.
Proof.
  intros p c s r H. induction H as [s N|a b r F H IH]; intros r' H'.
  - inversion H'; subst; auto. exfalso. eapply N. reflexivity.
  - inversion H' as [s' N|a' b' r2 F' H2 E E2]; subst; [exfalso; eapply N; reflexivity|].
    assert (L : List.length a = List.length a').
    { apply Nat.le_antisymm; [eapply F; symmetry; exact E|eapply F'; exact E]. }
    assert (A : a = a').
    { pose proof (f_equal (firstn (List.length a)) E) as X. rewrite L in X at 1. rewrite !firstn_app, L, !Nat.sub_diag, !firstn_O, !app_nil_r in X.
      rewrite <- L in X at 2. now rewrite !firstn_all in X. }
    subst a'. apply app_inv_head in E. apply app_inv_head in E. subst b'. do 2 f_equal. now apply IH.
Qed.

Lemma readAll_inl : forall fs name l c0 c, readAll fs name l c0 = inl c <->
  exists htmls, Forall2 (fun file html => fs (name file) = inl html) l htmls /\ c = c0 ++ List.concat htmls.
Proof.
  induction l as [|f l IH]; intros c0 c; cbn.
  - split.
    + intros [= <-]. exists []. split; [constructor|]. cbn. now rewrite app_nil_r.
    + intros (htmls & H & ->). inversion H; subst. cbn. now rewrite app_nil_r.
  - destruct (fs (name f)) as [h|e] eqn:E.
    + rewrite IH. split.
      * intros (hs & H & ->). exists (h :: hs). split; [now constructor|]. cbn. now rewrite app_assoc.
      * intros (hs & H & ->). inversion H as [|? h' ? hs' E' H']; subst. exists hs'. split; auto. cbn. rewrite app_assoc. congruence.
    + split; [discriminate|]. intros (hs & H & _). inversion H; subst. congruence.
Qed.
Lemma readAll_inr : forall fs name l c0 e, readAll fs name l c0 = inr e ->
  exists before file after, l = before ++ file :: after /\ fs (name file) = inr e /\ forall f, In f before -> exists html, fs (name f) = inl html.
Proof.
  induction l as [|f l IH]; intros c0 e H; cbn in H; [discriminate|].
  destruct (fs (name f)) as [h|e'] eqn:E.
  - destruct (IH _ _ H) as (b & x & a & -> & X & B). exists (f :: b), x, a. split; [reflexivity|]. split; auto. intros g [<-|G]; eauto.
  - injection H as ->. exists [], f, l. split; [reflexivity|]. split; auto. intros g [].
Qed.
Lemma files_are : files = component_files.
Proof. reflexivity. Qed.

Lemma page_first_excl : forall fs name script page err, page_of fs name script page -> ~ first_error fs name err.
Proof.
  intros fs name script page err (index & htmls & I & H & _) (b & f & a & E & R & _).
  assert (IN : In f (bs "index.html" :: component_files)) by (rewrite E; apply in_elt). destruct IN as [<-|IN]; [congruence|].
  clear E. induction H as [|x y l l' X H IH]; [easy|]. destruct IN as [->|IN]; [congruence|auto].
Qed.
