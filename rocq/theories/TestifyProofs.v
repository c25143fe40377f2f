From Verif Require Import Base JsonFloatModel TestifyModel TestifySpec.
From Coq Require Import Permutation Lia.
Open Scope Z_scope.
Open Scope list_scope.

(** * The text of a report *)
Lemma splitLine_spec : forall m l r, splitLine m = (l, r) ->
  ~ In 10 l /\ match r with Some r => m = l ++ 10 :: r | None => m = l end.
Proof.
  induction m as [|c m IH]; cbn; intros l r E.
  - injection E as <- <-. auto.
  - destruct (c =? 10) eqn:C.
    + apply Z.eqb_eq in C. subst. injection E as <- <-. auto.
    + apply Z.eqb_neq in C. destruct (splitLine m) as [l' r'] eqn:E'. injection E as <- <-.
      destruct (IH _ _ eq_refl) as [N M]. split.
      * intros [H|H]; auto.
      * destruct r'; rewrite M; reflexivity.
Qed.
Lemma splitLine_last : forall l, ~ In 10 l -> splitLine l = (l, None).
Proof.
  induction l as [|c l IH]; cbn; intros N; auto. rewrite IH by tauto.
  destruct (c =? 10) eqn:C; auto. apply Z.eqb_eq in C. tauto.
Qed.
Lemma splitLine_more : forall l m, ~ In 10 l -> splitLine (l ++ 10 :: m) = (l, Some m).
Proof.
  induction l as [|c l IH]; cbn; intros m N; auto. rewrite IH by tauto.
  destruct (c =? 10) eqn:C; auto. apply Z.eqb_eq in C. tauto.
Qed.
Lemma dropCR_chomped : forall l, chomped l (dropCR l).
Proof.
  intros l. unfold dropCR. destruct (rev l) as [|c r] eqn:E.
  - apply chomped_no. intros l' H. apply (f_equal (@rev Z)) in H. rewrite E, rev_app_distr in H. discriminate.
  - assert (L : l = rev r ++ [c]) by (rewrite <- (rev_involutive l), E; reflexivity).
    destruct (c =? 13) eqn:C.
    + apply Z.eqb_eq in C. subst c. rewrite L at 1. constructor.
    + apply Z.eqb_neq in C. apply chomped_no. intros l' H. rewrite L in H. apply app_inj_tail in H. tauto.
Qed.
Lemma chomped_fun : forall l a b, chomped l a -> chomped l b -> a = b.
Proof.
  intros l a b A B. inversion A as [x X Y|x N X Y]; inversion B as [y X' Y'|y N' X' Y']; subst; auto.
  - apply app_inj_tail in X'. symmetry. tauto.
  - exfalso. eapply N'. reflexivity.
  - exfalso. eapply N. reflexivity.
Qed.
Lemma short_dec : forall l, (maxTokenSize <=? List.length l)%nat = false <-> short l.
Proof.
  intros l. unfold short, lineLimit, maxTokenSize. rewrite Nat.leb_gt.
  rewrite <- (Z2Nat.id 65536) at 2 by lia. apply Nat2Z.inj_lt.
Qed.
Lemma lines_total : forall n m, (List.length m <= n)%nat -> exists ls, lines m ls.
Proof.
  induction n as [|n IH]; intros m L.
  - destruct m; [|cbn in L; lia]. exists []. constructor.
  - destruct (splitLine m) as [l r] eqn:E. apply splitLine_spec in E. destruct E as [N M]. destruct r as [r|].
    + destruct (IH r) as [ls H]. { subst m. rewrite app_length in L. cbn in L. lia. }
      exists (l :: ls). subst m. constructor; auto.
    + subst m. destruct l as [|c l]; [exists []; constructor|]. exists [c :: l]. constructor; auto. discriminate.
Qed.
Lemma scan_shown : forall m raw, lines m raw -> forall fuel, (List.length m <= fuel)%nat -> shown raw (scan fuel m).
Proof.
  induction 1; intros fuel F.
  - destruct fuel; constructor.
  - destruct fuel as [|fuel]; [destruct l; [congruence|cbn in F; lia]|].
    assert (E : scan (S fuel) l = if (maxTokenSize <=? List.length l)%nat then [] else dropCR l :: []).
    { destruct l; [congruence|]. unfold scan; fold scan. rewrite splitLine_last by auto. reflexivity. }
    rewrite E. destruct (maxTokenSize <=? List.length l)%nat eqn:S.
    + apply shown_long. rewrite <- short_dec. congruence.
    + apply short_dec in S. constructor; auto using dropCR_chomped. constructor.
  - rewrite app_length in F. cbn in F. destruct fuel as [|fuel]; [lia|].
    assert (E : scan (S fuel) (l ++ 10 :: m) = if (maxTokenSize <=? List.length l)%nat then [] else dropCR l :: scan fuel m).
    { destruct (l ++ 10 :: m) eqn:E; [destruct l; discriminate|]. unfold scan; fold scan. rewrite <- E, splitLine_more by auto. reflexivity. }
    rewrite E. destruct (maxTokenSize <=? List.length l)%nat eqn:S.
    + apply shown_long. rewrite <- short_dec. congruence.
    + apply short_dec in S. constructor; auto using dropCR_chomped. apply IHlines. lia.
Qed.
Lemma shown_fun : forall raw a, shown raw a -> forall b, shown raw b -> a = b.
Proof.
  induction 1; intros b B; inversion B; subst; auto; try contradiction.
  f_equal; eauto using chomped_fun.
Qed.
Lemma indentLoop_S : forall n ls i out, indentLoop n (S i) ls out = out ++ List.concat (map (fun l => align n ++ l) ls).
Proof.
  induction ls as [|l ls IH]; intros i out; [cbn; now rewrite app_nil_r|].
  change (indentLoop n (S i) (l :: ls) out) with (indentLoop n (S (S i)) ls ((out ++ [10; 13; 9] ++ spaces (n + 1) ++ [9]) ++ l)).
  rewrite IH. cbn [map List.concat]. unfold align, spaces. now rewrite <- !app_assoc.
Qed.
Lemma joined_concat : forall sep ls l, joined sep (l :: ls) = l ++ List.concat (map (fun l => sep ++ l) ls).
Proof.
  induction ls as [|a ls IH]; intros l; [cbn; now rewrite app_nil_r|].
  change (joined sep (l :: a :: ls)) with (l ++ sep ++ joined sep (a :: ls)). rewrite IH. cbn [map List.concat]. now rewrite <- !app_assoc.
Qed.
Lemma indentMessageLines_spec : forall m raw out n, lines m raw -> shown raw out ->
  indentMessageLines m n = joined (align n) out.
Proof.
  intros m raw out n L S. unfold indentMessageLines.
  rewrite (shown_fun _ _ (scan_shown _ _ L _ (le_n _)) _ S).
  destruct out as [|l ls]; auto. cbn [indentLoop Nat.eqb]. rewrite indentLoop_S. cbn [app]. now rewrite joined_concat.
Qed.

(** * Reports *)
Lemma Fail_good : forall sprintf msgs, goodMessages msgs -> Fail sprintf msgs = Ret 1 false.
Proof.
  intros sprintf msgs []; auto. unfold Fail, messageFromMsgAndArgs. cbn. destruct args; reflexivity.
Qed.
Lemma message_bad : forall sprintf msgs, ~ goodMessages msgs -> messageFromMsgAndArgs sprintf msgs = None.
Proof.
  intros sprintf [|m args] N; [exfalso; apply N; constructor|].
  assert (A : asString m = None).
  { destruct m as [[]|]; auto. cbn. destruct (ty =? 24) eqn:T; auto. apply Z.eqb_eq in T. subst. exfalso. apply N. constructor. }
  unfold messageFromMsgAndArgs. rewrite A. destruct args; auto.
Qed.
Lemma Fail_bad : forall sprintf msgs, ~ goodMessages msgs -> Fail sprintf msgs = Pan 0.
Proof. intros. unfold Fail. now rewrite message_bad. Qed.

(** An assertion that reports at most once, at its end *)
Definition oneReport (sprintf : bytes -> list iface -> bytes) (msgs : list iface) (r : res bool) : Prop := r = Ret 0 true \/ r = Fail sprintf msgs.
Lemma decides_bool : forall (b : bool) P r, (b = true <-> P) -> r = verdict b -> decides r P.
Proof. intros [] P r H ->; [left|right]; split; auto; [now apply H | intros HP; apply H in HP; discriminate]. Qed.

(** * Equality *)
Lemma bytesEqual_eq : forall a b, bytesEqual a b = true <-> a = b.
Proof.
  induction a as [|x a IH]; destruct b as [|y b]; cbn; split; intros H; try discriminate; auto.
  - apply andb_true_iff in H. destruct H as [H1 H2]. apply Z.eqb_eq in H1. apply IH in H2. congruence.
  - injection H as -> ->. rewrite Z.eqb_refl. now apply IH.
Qed.
Lemma ObjectsAreEqual_spec : forall deq, deqBytes deq -> forall a b, ObjectsAreEqual deq a b = true <-> deepEqual deq a b.
Proof.
  intros deq DB [a|] [b|]; cbn; try tauto; try (split; [discriminate|tauto]).
  2: { destruct a; split; intros H; try discriminate; tauto. }
  unfold deqBytes in DB. destruct a; try tauto. rewrite DB.
  destruct b; try (split; [discriminate|congruence]). destruct b0 as [x|], b as [y|]; try (split; [discriminate|congruence]); [|tauto].
  rewrite bytesEqual_eq. split; congruence.
Qed.
Lemma ObjectsAreEqual_false : forall deq, deqBytes deq -> forall a b, ObjectsAreEqual deq a b = false <-> ~ deepEqual deq a b.
Proof. intros deq DB a b. rewrite <- ObjectsAreEqual_spec by auto. destruct (ObjectsAreEqual deq a b); split; congruence. Qed.
Lemma isFunction_spec : forall a, isFunction a = true <-> isFunc a.
Proof.
  intros [v|]; cbn; unfold isFunc.
  - rewrite Z.eqb_eq. split; [eauto|]. intros (w & E & K). injection E as <-. auto.
  - split; [discriminate|]. intros (w & E & _). discriminate.
Qed.

(** * Emptiness *)
Lemma items_elements : forall v l, items v = Some l <-> elements v l.
Proof.
  intros v l. split.
  - destruct v; cbn; intros H; try discriminate; injection H as <-; try constructor.
    + destruct l0; constructor.
    + destruct b; constructor.
  - destruct 1; reflexivity.
Qed.
Lemma items_none : forall v, items v = None <-> ~ exists l, elements v l.
Proof.
  intros v. split.
  - intros E [l H]. apply items_elements in H. congruence.
  - intros N. destruct (items v) as [l|] eqn:E; auto. exfalso. apply N. exists l. now apply items_elements.
Qed.
Lemma elements_fun : forall v a b, elements v a -> elements v b -> a = b.
Proof. intros v a b A B. apply items_elements in A, B. congruence. Qed.
Lemma getLen_spec : forall v n, getLen (Some v) = Some n <-> hasLen v n.
Proof.
  intros v n. split.
  - destruct v; cbn; intros H; try discriminate; injection H as <-.
    + constructor.
    + apply len_list. now apply items_elements.
    + apply len_list. now apply items_elements.
    + apply len_list. now apply items_elements.
    + destruct l; constructor.
    + destruct n0; constructor.
  - destruct 1; try reflexivity. destruct H; cbn; auto.
Qed.
Section Emp.
  Variable deq : gval -> gval -> bool.
  Variable zero : Z -> gval.
  Variable memory : Z -> iface.
  Notation isEmpty := (isEmpty deq zero memory).
  Notation emptiness := (emptiness deq zero memory).
  Lemma isEmpty_sound : forall fuel o b, isEmpty fuel o = Some b -> emptiness o b.
  Proof.
    induction fuel as [|fuel IH]; intros o b H; [discriminate|]. destruct o as [v|]; cbn in H; [|injection H as <-; constructor].
    destruct v; try (injection H as <-; apply emp_zero; cbn; tauto).
    - injection H as <-. apply emp_len; [exact Logic.I|]. now apply getLen_spec.
    - injection H as <-. destruct l as [l|].
      + apply emp_len with (n := List.length l); [exact Logic.I|]. now apply getLen_spec.
      + apply emp_len with (n := 0%nat); [exact Logic.I|]. now apply getLen_spec.
    - injection H as <-. destruct b0 as [l|].
      + apply emp_len with (n := List.length l); [exact Logic.I|]. apply getLen_spec. cbn. now rewrite map_length.
      + apply emp_len with (n := 0%nat); [exact Logic.I|]. now apply getLen_spec.
    - injection H as <-. destruct l as [l|].
      + apply emp_len with (n := List.length l); [exact Logic.I|]. now apply getLen_spec.
      + apply emp_len with (n := 0%nat); [exact Logic.I|]. now apply getLen_spec.
    - injection H as <-. destruct n as [n|].
      + apply emp_len with (n := n); [exact Logic.I|]. now apply getLen_spec.
      + apply emp_len with (n := 0%nat); [exact Logic.I|]. now apply getLen_spec.
    - destruct p as [p|]; [constructor; auto|]. injection H as <-. constructor.
  Qed.
  Lemma isEmpty_complete : forall o b, emptiness o b -> exists n, forall fuel, (n <= fuel)%nat -> isEmpty fuel o = Some b.
  Proof.
    induction 1.
    - exists 1%nat. intros [|f] F; [lia|]. reflexivity.
    - exists 1%nat. intros [|f] F; [lia|]. apply getLen_spec in H0.
      destruct v; cbn in H; try contradiction; cbn in H0 |- *; injection H0 as <-; auto.
      + destruct l; auto.
      + now destruct b; cbn; rewrite ?map_length.
      + destruct l; auto.
      + destruct n0; auto.
    - exists 1%nat. intros [|f] F; [lia|]. reflexivity.
    - destruct IHemptiness as [n Hn]. exists (S n). intros [|f] F; [lia|]. cbn. apply Hn. lia.
    - exists 1%nat. intros [|f] F; [lia|]. destruct v; cbn in H, H0 |- *; tauto.
  Qed.
  Lemma emptiness_fun : forall o a b, emptiness o a -> emptiness o b -> a = b.
  Proof.
    intros o a b A B. apply isEmpty_complete in A, B. destruct A as [n A], B as [k B].
    specialize (A (n + k)%nat ltac:(lia)). specialize (B (n + k)%nat ltac:(lia)). congruence.
  Qed.
  Lemma isEmpty_none : forall fuel o, isEmpty fuel o = None <-> exists o', chain memory fuel o o'.
  Proof.
    induction fuel as [|fuel IH]; intros o.
    - split; [|reflexivity]. intros _. exists o. constructor.
    - split.
      + destruct o as [v|]; cbn; [|discriminate]. destruct v; try discriminate. destruct p as [p|]; [|discriminate].
        intros H. apply IH in H. destruct H as [o' H]. exists o'. now constructor.
      + intros [o' H]. inversion H; subst. cbn. apply IH. eauto.
  Qed.
End Emp.

(** * Containment *)
Lemma hasPrefix_spec : forall s sub, hasPrefix s sub = true <-> exists b, s = sub ++ b.
Proof.
  intros s sub. revert s. induction sub as [|c sub IH]; intros s; cbn.
  - split; eauto. intros _. now destruct s.
  - destruct s as [|d s]; [split; [discriminate|intros [b H]; discriminate]|].
    cbn. rewrite andb_true_iff, Z.eqb_eq, IH. split.
    + intros [-> [b ->]]. exists b. reflexivity.
    + intros [b H]. injection H as -> ->. eauto.
Qed.
Lemma containsSub_spec : forall s sub, containsSub s sub = true <-> occurs s sub.
Proof.
  unfold occurs. induction s as [|c s IH]; intros sub; cbn [containsSub]; rewrite orb_true_iff, hasPrefix_spec.
  - split.
    + intros [[b H]|H]; [|discriminate]. exists [], b. exact H.
    + intros (a & b & H). destruct a; [|discriminate]. left. exists b. exact H.
  - rewrite IH. split.
    + intros [[b H]|(a & b & H)]; [exists [], b; exact H|]. exists (c :: a), b. now rewrite H.
    + intros (a & b & H). destruct a as [|d a]; [left; exists b; exact H|]. injection H as -> H. right. eauto.
Qed.
Lemma valueString_spec : forall typeName e, sought typeName e (valueString typeName e).
Proof. intros tn [[]|]; cbn; try constructor; intros; discriminate. Qed.
Lemma sought_fun : forall typeName e a b, sought typeName e a -> sought typeName e b -> a = b.
Proof.
  intros tn e a b A B. inversion A; subst; inversion B; subst; auto; try (exfalso; eapply H; reflexivity); congruence.
Qed.
Lemma anyEqual_spec : forall deq, deqBytes deq -> forall l e, anyEqual deq l e = true <-> exists x, In x l /\ deepEqual deq x e.
Proof.
  intros deq DB. induction l as [|x l IH]; intros e; cbn.
  - split; [discriminate|]. intros (x & [] & _).
  - destruct (ObjectsAreEqual deq x e) eqn:E.
    + apply ObjectsAreEqual_spec in E; auto. split; eauto.
    + apply ObjectsAreEqual_false in E; auto. rewrite IH. split; [intros (y & H & D); eauto|].
      intros (y & [->|H] & D); [contradiction|]. eauto.
Qed.
Section Con.
  Variable deq : gval -> gval -> bool.
  Variable typeName : Z -> bytes.
  Hypothesis DB : deqBytes deq.
  Lemma includeElement_spec : forall s e ok found, includeElement deq typeName s e = (ok, found) ->
    (ok = true <-> container s) /\ (found = true <-> member deq typeName s e).
  Proof.
    intros s e ok found H.
    assert (L : forall v, s = Some v -> (forall ty s, v <> VStr ty s) -> (forall ty l, v <> VMap ty l) -> (forall ty n, v <> VChan ty n) ->
      (ok = true <-> container s) /\ (found = true <-> member deq typeName s e)).
    { intros v -> N1 N2 N3.
      assert (E : includeElement deq typeName (Some v) e = match items v with Some l => (true, anyEqual deq l e) | None => (false, false) end).
      { destruct v; try reflexivity; exfalso; [eapply N1|eapply N2|eapply N3]; reflexivity. }
      rewrite E in H. destruct (items v) as [l|] eqn:I.
      - injection H as <- <-. pose proof (proj1 (items_elements _ _) I) as I'. split.
        + split; auto. intros _. econstructor; eauto.
        + rewrite anyEqual_spec by auto. split.
          * intros (x & Hx & D). eapply mem_list; eauto.
          * intros M. inversion M; subst; try (exfalso; eapply N1; reflexivity); try (exfalso; eapply N2; reflexivity).
            rewrite (elements_fun _ _ _ I' H0). eauto.
      - injection H as <- <-. apply items_none in I. split; split; try discriminate; intros M; inversion M; subst;
          try (exfalso; eapply N1; reflexivity); try (exfalso; eapply N2; reflexivity); try (exfalso; eapply N3; reflexivity);
          exfalso; apply I; eauto. }
    destruct s as [v|].
    2: { injection H as <- <-. split; split; try discriminate; intros M; inversion M. }
    destruct v; try (apply (L _ eq_refl); intros; discriminate).
    - injection H as <- <-. split; [split; auto; constructor|]. rewrite containsSub_spec. split.
      + intros O. econstructor; eauto. apply valueString_spec.
      + intros M. inversion M; subst; [|inversion H0]. now rewrite (sought_fun _ _ _ _ (valueString_spec typeName e) H1).
    - injection H as <- <-. split; [split; auto; constructor|]. rewrite anyEqual_spec by auto. split.
      + intros (x & Hx & D). destruct l as [l|]; [|destruct Hx]. apply in_map_iff in Hx. destruct Hx as ([k v] & <- & Hx).
        eapply mem_map; eauto.
      + intros M. inversion M; subst; [inversion H0|]. exists k. split; auto. apply in_map_iff. exists (k, v). auto.
    - assert (N : ~ member deq typeName (Some (VChan ty n)) e). { intros M. inversion M; subst; match goal with E : elements _ _ |- _ => inversion E end. }
      cbn in H. destruct n as [[|n]|]; injection H as <- <-; (split; [|split; [discriminate|tauto]]); split; auto; try discriminate; try (intros; constructor).
      intros C. inversion C; subst. inversion H0.
  Qed.
  Lemma container_dec : forall s, container s \/ ~ container s.
  Proof.
    intros s. destruct (includeElement deq typeName s None) as [ok found] eqn:E. apply includeElement_spec in E. destruct E as [E _].
    destruct ok; [left; now apply E|right; rewrite <- E; discriminate].
  Qed.
  Lemma member_dec : forall s e, member deq typeName s e \/ ~ member deq typeName s e.
  Proof.
    intros s e. destruct (includeElement deq typeName s e) as [ok found] eqn:E. apply includeElement_spec in E. destruct E as [_ E].
    destruct found; [left; now apply E|right; rewrite <- E; discriminate].
  Qed.
  Lemma member_container : forall s e, member deq typeName s e -> container s.
  Proof. intros s e []; try constructor. econstructor; eauto. Qed.
End Con.

(** * Rearrangements *)
Section Match.
  Variable deq : gval -> gval -> bool.
  Hypothesis DB : deqBytes deq.
  Variable sprintf : bytes -> list iface -> bytes.
  Notation eqv := (deepEqual deq).
  (** What is not marked *)
  Definition unmarked (b : list (iface * bool)) : list iface := map fst (filter (fun x => negb (snd x)) b).
  Lemma unmarked_all : forall l, unmarked (map (fun x => (x, false)) l) = l.
  Proof. induction l as [|x l IH]; auto. unfold unmarked in *. cbn. now rewrite IH. Qed.
  Lemma markOne_some : forall b e b', markOne deq b e = Some b' ->
    exists p x s, unmarked b = p ++ x :: s /\ unmarked b' = p ++ s /\ eqv x e.
  Proof.
    induction b as [|[x v] b IH]; intros e b' H; [discriminate|]. cbn in H. destruct v.
    - destruct (markOne deq b e) as [b1|] eqn:E; [|discriminate]. injection H as <-. destruct (IH _ _ E) as (p & y & s & U & U' & D).
      exists p, y, s. auto.
    - destruct (ObjectsAreEqual deq x e) eqn:O.
      + injection H as <-. apply ObjectsAreEqual_spec in O; auto. exists [], x, (unmarked b). auto.
      + destruct (markOne deq b e) as [b1|] eqn:E; [|discriminate]. injection H as <-. destruct (IH _ _ E) as (p & y & s & U & U' & D).
        exists (x :: p), y, s. unfold unmarked in *. cbn. rewrite U, U'. auto.
  Qed.
  Lemma markOne_none : forall b e, markOne deq b e = None -> forall x, In x (unmarked b) -> ~ eqv x e.
  Proof.
    induction b as [|[x v] b IH]; intros e H y Y; [destruct Y|]. cbn in H. destruct v.
    - destruct (markOne deq b e) eqn:E; [discriminate|]. eapply IH; eauto.
    - destruct (ObjectsAreEqual deq x e) eqn:O; [discriminate|]. apply ObjectsAreEqual_false in O; auto.
      destruct (markOne deq b e) eqn:E; [discriminate|]. destruct Y as [<-|Y]; auto.
  Qed.
  Lemma matchLoop_sound : forall a b msgs, matchLoop sprintf deq a b msgs = Ret 0 true ->
    List.length a = List.length (unmarked b) -> rearranged eqv a (unmarked b).
  Proof.
    induction a as [|e a IH]; intros b msgs H L.
    - destruct (unmarked b); [|discriminate]. exists []. split; constructor.
    - cbn in H. destruct (markOne deq b e) as [b'|] eqn:M.
      2: { unfold Fail in H. destruct (messageFromMsgAndArgs sprintf msgs); discriminate. }
      destruct (markOne_some _ _ _ M) as (p & x & s & U & U' & D). rewrite U in L |- *. rewrite app_length in L. cbn in L.
      destruct (IH _ _ H) as (q & P & F). { rewrite U', app_length. lia. }
      rewrite U' in P. exists (x :: q). split; [|constructor; auto].
      rewrite <- Permutation_middle. now constructor.
  Qed.
  Hypothesis symm : forall x y, eqv x y -> eqv y x.
  Hypothesis tran : forall x y z, eqv x y -> eqv y z -> eqv x z.
  Lemma Forall2_in_r : forall (R : iface -> iface -> Prop) l p y s, Forall2 R l (p ++ y :: s) ->
    exists p' x s', l = p' ++ x :: s' /\ R x y /\ Forall2 R p' p /\ Forall2 R s' s.
  Proof.
    intros R l p y s F. apply Forall2_app_inv_r in F. destruct F as (p' & r & Fp & Fr & ->).
    inversion Fr; subst. eauto 8.
  Qed.
  Lemma rearranged_remove : forall a e p x s, rearranged eqv (e :: a) (p ++ x :: s) -> eqv x e -> rearranged eqv a (p ++ s).
  Proof.
    intros a e p x s (q & P & F) D. inversion F as [|z ? q' ? Dz Fq]; subst.
    assert (X : In x (z :: q')). { eapply Permutation_in; [exact P|]. apply in_elt. }
    apply in_split in X. destruct X as (l1 & l2 & X). destruct l1 as [|z' l1].
    - injection X as -> ->. exists l2. split; auto. rewrite <- Permutation_middle in P. now apply Permutation_cons_inv in P.
    - injection X as -> ->. (* z' takes the place of x *)
      apply Forall2_app_inv_l in Fq. destruct Fq as (a1 & a2 & F1 & F2 & ->). inversion F2 as [|? y ? a3 Dy F3]; subst.
      exists (l1 ++ z' :: l2). split.
      + rewrite <- Permutation_middle in P.
        assert (P' : Permutation (x :: p ++ s) (x :: z' :: l1 ++ l2)).
        { rewrite P. rewrite (perm_swap z' x). constructor. now rewrite Permutation_middle. }
        apply Permutation_cons_inv in P'. rewrite P'. apply Permutation_middle.
      + apply Forall2_app; auto. constructor; auto. apply tran with e; auto. apply tran with x; auto.
  Qed.
  Lemma matchLoop_complete : forall a b msgs, rearranged eqv a (unmarked b) -> matchLoop sprintf deq a b msgs = Ret 0 true.
  Proof.
    induction a as [|e a IH]; intros b msgs R; auto. cbn. destruct (markOne deq b e) as [b'|] eqn:M.
    - destruct (markOne_some _ _ _ M) as (p & x & s & U & U' & D). apply IH. rewrite U'. rewrite U in R. eapply rearranged_remove; eauto.
    - exfalso. destruct R as (q & P & F). inversion F as [|z ? q' ? Dz Fq]; subst.
      eapply markOne_none; eauto. eapply Permutation_in; [symmetry; exact P|]. now left.
  Qed.
End Match.
Lemma matchLoop_one : forall sprintf deq a b msgs, oneReport sprintf msgs (matchLoop sprintf deq a b msgs).
Proof.
  unfold oneReport. induction a as [|e a IH]; intros b msgs; cbn; auto. destruct (markOne deq b e); auto.
Qed.
Lemma Forall2_len : forall (R : iface -> iface -> Prop) a b, Forall2 R a b -> List.length a = List.length b.
Proof. induction 1; cbn; auto. Qed.
Lemma rearranged_length : forall eq a b, rearranged eq a b -> List.length a = List.length b.
Proof. intros eq a b (q & P & F). rewrite (Permutation_length P). symmetry. eapply Forall2_len; eauto. Qed.
