(** Proofs for C140. *)
From Verif Require Import Base JsonCompModel JsonCompSpec JsonExtModel JsonExtSpec.
From Verif Require JsonCompProofs.
Open Scope list_scope.

Lemma ask_some : forall exts p t id, ask exts p t = Some id <-> claims exts p t id.
Proof.
  intros exts p t id. split.
  - induction exts as [|x l IH]; cbn; intro H; [discriminate H|]. destruct (x p t) as [i|] eqn:X.
    + injection H as ->. exists [], x, l. split; [reflexivity|]. split; [exact X|]. intros y [].
    + destruct (IH H) as (l1 & y & l2 & -> & Y & F). exists (x :: l1), y, l2. split; [reflexivity|]. split; [exact Y|]. intros z [<-|Z]; [exact X|exact (F _ Z)].
  - intros (l1 & x & l2 & -> & X & F). induction l1 as [|y l1 IH]; cbn; [rewrite X; reflexivity|]. rewrite (F y (or_introl eq_refl)). apply IH. intros z Z. apply F. right. exact Z.
Qed.
Lemma ask_none : forall exts p t, ask exts p t = None <-> silent exts p t.
Proof.
  intros exts p t. split.
  - induction exts as [|x l IH]; cbn; intros H y Y; [destruct Y|]. destruct (x p t) eqn:X; [discriminate H|]. destruct Y as [<-|Y]; [exact X|exact (IH H _ Y)].
  - intro F. induction exts as [|x l IH]; cbn; [reflexivity|]. rewrite (F x (or_introl eq_refl)). apply IH. intros z Z. apply F. right. exact Z.
Qed.

Section Ext.
  Variable types : nat -> shape.
  Variable typeName : nat -> bytes.
  Section Names.
  Variable unexported : bool.
  Notation eligible := (eligible types unexported).
  Notation shown := (shown types unexported).
  Notation getFieldNameX := (getFieldNameX types unexported).
  Definition eligibleb (f : field) : bool := (unexported || isUpperLatin1 (hd 0 (f_name f))) && match types (f_type f) with SFunc | SChan => false | _ => true end.
  Lemma eligible_iff : forall f, eligible f <-> eligibleb f = true.
  Proof.
    intros f. unfold JsonExtSpec.eligible, eligibleb, isUpperLatin1. rewrite andb_true_iff, orb_true_iff. split.
    - intros [A [H1 H2]]. split; [|destruct (types (f_type f)); congruence]. destruct A as [A|(c & r & -> & H)]; [left; exact A|right]. cbn [hd].
      destruct H as [H|[H N]]; apply orb_true_iff; [left; apply andb_true_iff; lia|right; rewrite !andb_true_iff, negb_true_iff; lia].
    - intros [A H2]. split; [|split; intros E; rewrite E in H2; discriminate]. destruct A as [A|H1]; [left; exact A|right]. destruct (f_name f) as [|c r]; [discriminate|]. cbn [hd] in H1. exists c, r. split; auto.
      apply orb_true_iff in H1. rewrite !andb_true_iff, negb_true_iff in H1. lia.
  Qed.
  Lemma name_eq : forall f, getFieldNameX f =
    if eligibleb f then let part := untilComma (f_tag f) in if (lenZ part =? 1) && (hd 0 part =? 45) then [] else if is_nil part then f_name f else part else [].
  Proof.
    intros f. unfold JsonExtModel.getFieldNameX, eligibleb. destruct unexported; cbn [negb andb orb]; [|destruct (isUpperLatin1 (hd 0 (f_name f))); cbn [negb andb]; auto];
    (destruct (f_tag f) as [|c tg]; cbn [is_nil]; [|destruct (types (f_type f)); reflexivity]; cbn [untilComma is_nil lenZ List.length]; destruct (types (f_type f)); reflexivity).
  Qed.
  Lemma shown_some : forall f name, f_name f <> [] -> (shown f (Some name) <-> getFieldNameX f = name /\ is_nil name = false).
  Proof.
    intros f name Ne. rewrite name_eq. cbv zeta. split.
    - intros H. inversion H as [| |? V T|? ? V T N1 N2]; subst; pose proof V as V'; apply eligible_iff in V'; rewrite V'; apply JsonCompProofs.tag_name_iff in T.
      + rewrite <- T. cbn. split; auto. destruct (f_name f); [contradiction|reflexivity].
      + rewrite <- T. destruct (_ && _) eqn:E; [apply JsonCompProofs.dash_iff in E; congruence|]. destruct name; [congruence|]. auto.
    - intros [H N]. destruct (eligibleb f) eqn:V; [|subst; discriminate]. apply eligible_iff in V. destruct (_ && _) eqn:E; [subst; discriminate|].
      destruct (is_nil (untilComma (f_tag f))) eqn:EN.
      + subst. apply sh_own; auto. apply JsonCompProofs.tag_name_iff. destruct (untilComma (f_tag f)); [auto|discriminate].
      + subst. apply sh_tag; auto.
        * now apply JsonCompProofs.tag_name_iff.
        * intro Z. rewrite Z in EN. discriminate.
        * intro Z. apply JsonCompProofs.dash_iff in Z. congruence.
  Qed.
  Lemma shown_none : forall f, f_name f <> [] -> (shown f None <-> is_nil (getFieldNameX f) = true).
  Proof.
    intros f Ne. rewrite name_eq. cbv zeta. split.
    - intros H. inversion H as [? V|? V T| |]; subst.
      + destruct (eligibleb f) eqn:E; auto. apply eligible_iff in E. tauto.
      + apply eligible_iff in V. rewrite V. apply JsonCompProofs.tag_name_iff in T.
        assert (E : (lenZ (untilComma (f_tag f)) =? 1) && (hd 0 (untilComma (f_tag f)) =? 45) = true) by (apply JsonCompProofs.dash_iff; auto). rewrite E. reflexivity.
    - destruct (eligibleb f) eqn:V.
      + apply eligible_iff in V. destruct (_ && _) eqn:E.
        * intros _. apply sh_dash; auto. apply JsonCompProofs.tag_name_iff. symmetry. now apply JsonCompProofs.dash_iff.
        * destruct (is_nil (untilComma (f_tag f))) eqn:EN; intro X; [destruct (f_name f); [contradiction|discriminate X]|congruence].
      + intros _. apply sh_hidden. rewrite eligible_iff. congruence.
  Qed.
  End Names.
  Lemma name_default : forall f, getFieldNameX types false f = getFieldName types f.
  Proof. intro f. unfold getFieldNameX, getFieldName. cbn [negb andb]. reflexivity. Qed.

  Variable exts : list (bytes -> nat -> option nat).
  (** * Without an extension *)
  Definition emb (l : list (nat * bytes * encoder)) : list (nat * bytes * xenc) := map (fun x => match x with (i, e) => (i, embed e) end) l.
  Lemma fields_embed : forall r1 r2, (forall p t, r1 p t = option_map embed (r2 p t)) -> forall fs i b, structFieldsX types false r1 i b fs = option_map emb (structFields types r2 i b fs).
  Proof.
    intros r1 r2 H. induction fs as [|f fs IH]; intros i b; cbn; [reflexivity|]. rewrite name_default. destruct (is_nil (getFieldName types f)); [apply IH|]. rewrite H. destruct (r2 _ _) as [e|]; cbn; [|reflexivity].
    rewrite IH. destruct (structFields types r2 (S i) false fs); reflexivity.
  Qed.
  Lemma key_embed : forall k e, keyEncoderOfX types k (embed e) = embedK (keyEncoderOf types k e).
  Proof. intros k e. unfold keyEncoderOfX, keyEncoderOf. destruct (types k); reflexivity. Qed.
  Lemma default_embed : (forall p t, silent exts p t) -> forall f p t, encoderOfX types typeName false exts f p t = option_map embed (encoderOf types typeName f p t).
  Proof.
    intro Si. induction f as [|f IH]; intros p t; [reflexivity|]. cbn [encoderOfX encoderOf]. rewrite (proj2 (ask_none _ _ _) (Si p t)). destruct (types t); try reflexivity.
    - rewrite IH. destruct (encoderOf _ _ _ _ _); reflexivity.
    - rewrite IH. destruct (encoderOf _ _ _ _ _); reflexivity.
    - rewrite IH. destruct (encoderOf _ _ _ _ _); reflexivity.
    - rewrite (fields_embed _ _ IH). destruct (structFields _ _ _ _ _); reflexivity.
    - rewrite IH. destruct (encoderOf types typeName f (p ++ bs " [mapKey]") k) as [ek|]; cbn [obind option_map]; [|reflexivity]. rewrite IH. destruct (encoderOf types typeName f (p ++ bs " [mapElem]") t0); cbn; [|reflexivity].
      rewrite key_embed. reflexivity.
  Qed.
  Lemma fields_untouched : forall r1 r2, (forall p t e, r1 p t = Some e -> untouched e = true -> exists e0, r2 p t = Some e0 /\ e = embed e0) ->
    forall fs i b l, structFieldsX types false r1 i b fs = Some l -> forallb (fun x => match x with (_, e) => untouched e end) l = true -> exists l0, structFields types r2 i b fs = Some l0 /\ l = emb l0.
  Proof.
    intros r1 r2 H. induction fs as [|f fs IH]; intros i b l E U; cbn in E |- *; [injection E as <-; exists []; auto|]. rewrite name_default in E. destruct (is_nil (getFieldName types f)); [exact (IH _ _ _ E U)|].
    destruct (r1 _ _) as [e|] eqn:R; [|discriminate E]. cbn [obind] in E. destruct (structFieldsX types false r1 (S i) false fs) as [l'|] eqn:E'; [|discriminate E]. injection E as <-. cbn in U. apply andb_true_iff in U. destruct U as [U1 U2].
    destruct (H _ _ _ R U1) as (e0 & -> & ->). destruct (IH _ _ _ E' U2) as (l0 & L & ->). cbn [obind]. rewrite L. eexists. split; reflexivity.
  Qed.
  Lemma untouched_embed : forall f p t e, encoderOfX types typeName false exts f p t = Some e -> untouched e = true -> exists e0, encoderOf types typeName f p t = Some e0 /\ e = embed e0.
  Proof.
    induction f as [|f IH]; intros p t e E U; [discriminate E|]. cbn [encoderOfX encoderOf] in *. destruct (ask exts p t); [injection E as <-; discriminate U|].
    destruct (types t) eqn:T; try (injection E as <-; eexists; split; reflexivity).
    - destruct (encoderOfX _ _ _ _ f _ t0) as [x|] eqn:X; [|discriminate E]. injection E as <-. destruct (IH _ _ _ X U) as (e0 & -> & ->). eexists. split; reflexivity.
    - destruct (encoderOfX _ _ _ _ f _ t0) as [x|] eqn:X; [|discriminate E]. injection E as <-. destruct (IH _ _ _ X U) as (e0 & -> & ->). eexists. split; reflexivity.
    - destruct (encoderOfX _ _ _ _ f _ t0) as [x|] eqn:X; [|discriminate E]. injection E as <-. destruct (IH _ _ _ X U) as (e0 & -> & ->). eexists. split; reflexivity.
    - destruct (structFieldsX _ _ _ _ _ fs) as [l|] eqn:L; [|discriminate E]. injection E as <-. destruct (fields_untouched _ _ IH _ _ _ _ L U) as (l0 & -> & ->). eexists. split; reflexivity.
    - destruct (encoderOfX _ _ _ _ f (p ++ bs " [mapKey]") k) as [y|] eqn:Y; [|discriminate E]. cbn [obind] in E. destruct (encoderOfX _ _ _ _ f (p ++ bs " [mapElem]") t0) as [x|] eqn:X; [|discriminate E]. injection E as <-.
      cbn [untouched] in U. apply andb_true_iff in U. destruct U as [U1 U2]. destruct (IH _ _ _ X U2) as (e0 & E0 & ->).
      assert (K : exists ek, encoderOf types typeName f (p ++ bs " [mapKey]") k = Some ek /\ keyEncoderOfX types k y = embedK (keyEncoderOf types k ek)).
      { destruct (untouched y) eqn:Uy; [destruct (IH _ _ _ Y Uy) as (ek & A & ->); exists ek; split; [exact A|apply key_embed]|]. unfold keyEncoderOfX, keyEncoderOf in *.
        destruct f as [|f]; [discriminate Y|]. cbn [encoderOf]. destruct (types k) eqn:Tk; cbn in U1; try congruence; eexists; split; reflexivity. }
      destruct K as (ek & -> & K2). cbn [obind]. rewrite E0. eexists. split; [reflexivity|]. cbn. rewrite K2. reflexivity.
  Qed.
End Ext.

Section Ends.
  Variable types : nat -> shape.
  Variable typeName : nat -> bytes.
  Variable unexported : bool.
  Variable exts : list (bytes -> nat -> option nat).
  Notation encoderOfX := (encoderOfX types typeName unexported exts).
  Notation structFieldsX := (structFieldsX types unexported).
  Notation shown := (shown types unexported).
  Hypothesis names : forall t fs f, types t = SStruct fs -> In f fs -> f_name f <> [].
  Lemma fieldsX_mono : forall (r1 r2 : bytes -> nat -> option xenc), (forall p t e, r1 p t = Some e -> r2 p t = Some e) -> forall fs i b l, structFieldsX r1 i b fs = Some l -> structFieldsX r2 i b fs = Some l.
  Proof.
    intros r1 r2 H. induction fs as [|f fs IH]; intros i b l E; cbn in *; [exact E|]. destruct (is_nil _); [exact (IH _ _ _ E)|]. destruct (r1 _ _) as [e|] eqn:E1; [|discriminate]. rewrite (H _ _ _ E1). cbn [obind] in *.
    destruct (structFieldsX r1 _ _ _) as [l'|] eqn:E2; [|discriminate]. rewrite (IH _ _ _ E2). exact E.
  Qed.
  Lemma mono1 : forall f p t e, encoderOfX f p t = Some e -> encoderOfX (S f) p t = Some e.
  Proof.
    induction f as [|f IH]; intros p t e H; [discriminate|]. cbn [JsonExtModel.encoderOfX] in H. remember (S f) as sf. cbn [JsonExtModel.encoderOfX]. subst sf. destruct (ask exts p t); [exact H|].
    destruct (types t); auto; try (destruct (encoderOfX f _ _) as [x|] eqn:E; [|discriminate]; rewrite (IH _ _ _ E); exact H).
    - destruct (structFieldsX (encoderOfX f) 0 true fs) as [l|] eqn:E; [|discriminate]. rewrite (fieldsX_mono _ _ IH _ _ _ _ E). exact H.
    - destruct (encoderOfX f _ k) as [x|] eqn:E; [|discriminate]; rewrite (IH _ _ _ E). cbn [obind] in *. destruct (encoderOfX f _ t0) as [y|] eqn:E2; [|discriminate]; rewrite (IH _ _ _ E2). exact H.
  Qed.
  Lemma mono : forall f f' p t e, (f <= f')%nat -> encoderOfX f p t = Some e -> encoderOfX f' p t = Some e.
  Proof. intros f f' p t e H. induction H; auto using mono1. Qed.
  Definition enough (f t : nat) : Prop := forall p, exists e, encoderOfX f p t = Some e.
  Lemma enough_le : forall f f' t, (f <= f')%nat -> enough f t -> enough f' t.
  Proof. intros f f' t H E p. destruct (E p) as (e & Ee). exists e. eapply mono; eauto. Qed.
  Lemma fields_enough : forall f fs, (forall x, In x fs -> f_name x <> []) -> (forall x name, In x fs -> shown x (Some name) -> enough f (f_type x)) -> forall i b, exists l, structFieldsX (encoderOfX f) i b fs = Some l.
  Proof.
    intros f. induction fs as [|x fs IH]; intros N H i b; cbn; [eauto|]. assert (N' : forall y, In y fs -> f_name y <> []) by (intros y Y; apply N; right; exact Y).
    assert (H' : forall y name, In y fs -> shown y (Some name) -> enough f (f_type y)) by (intros y name Y J; eapply H; [right; exact Y|exact J]). destruct (is_nil (getFieldNameX types unexported x)) eqn:E; [exact (IH N' H' _ _)|].
    assert (J : shown x (Some (getFieldNameX types unexported x))) by (apply shown_some; [exact (N x (or_introl eq_refl))|auto]).
    edestruct (H x _ (or_introl eq_refl) J) as (e & ->). cbn [obind]. destruct (IH N' H' (S i) false) as (l & ->). cbn. eauto.
  Qed.
  Lemma settled_ends : forall t, settled types unexported exts t -> exists f, enough f t.
  Proof.
    induction 1 as [t X|t _ IH].
    - exists 1%nat. intro p. cbn. destruct (ask exts p t) eqn:A; [eauto|]. apply ask_none in A. destruct (X _ A).
    - unfold part in IH. assert (G : exists f, match types t with SPtr x | SSlice x | SArray _ x => enough f x | SMap k x => enough f k /\ enough f x | SStruct fs => forall x name, In x fs -> shown x (Some name) -> enough f (f_type x) | _ => True end).
      { destruct (types t) eqn:T; try (exists O; exact Logic.I).
        - exact (IH _ eq_refl).
        - exact (IH _ eq_refl).
        - exact (IH _ eq_refl).
        - assert (N : forall x, In x fs -> f_name x <> []) by (intros x; exact (names _ _ _ T)).
          assert (IH' : forall x name, In x fs -> shown x (Some name) -> exists f, enough f (f_type x)) by (intros x name Hx Hj; apply IH; exists x, name; auto). clear IH T. induction fs as [|x fs IHl].
          + exists O. intros x name [].
          + destruct IHl as (f1 & F1); [intros; apply N; right; assumption|intros; eapply IH'; [right|]; eassumption|]. destruct (is_nil (getFieldNameX types unexported x)) eqn:E.
            * exists f1. intros y name [<-|Hy] J; [|eauto]. apply shown_some in J; [|exact (N x (or_introl eq_refl))]. destruct J as [J1 J2]. rewrite J1 in E. congruence.
            * assert (J : shown x (Some (getFieldNameX types unexported x))) by (apply shown_some; [exact (N x (or_introl eq_refl))|auto]). destruct (IH' x _ (or_introl eq_refl) J) as (f2 & F2).
              exists (Nat.max f1 f2). intros y name [<-|Hy] J'; [eapply enough_le; [|exact F2]; lia|eapply enough_le; [|eapply F1; eauto]; lia].
        - destruct (IH k (or_introl eq_refl)) as (f1 & F1). destruct (IH t0 (or_intror eq_refl)) as (f2 & F2). exists (Nat.max f1 f2). split; (eapply enough_le; [|eassumption]; lia). }
      destruct G as [f G]. exists (S f). intro p. cbn [JsonExtModel.encoderOfX]. destruct (ask exts p t); [eauto|]. destruct (types t) eqn:T; try (eexists; reflexivity).
      + edestruct G as (e & ->). cbn. eauto.
      + edestruct G as (e & ->). cbn. eauto.
      + edestruct G as (e & ->). cbn. eauto.
      + destruct (fields_enough f fs (fun x => names _ _ x T) G 0 true) as (l & ->). cbn. eauto.
      + destruct G as [G1 G2]. edestruct G1 as (e1 & ->). cbn [obind]. edestruct G2 as (e2 & ->). cbn. eauto.
  Qed.
  Lemma fields_made : forall f fs i b l, (forall x, In x fs -> f_name x <> []) -> structFieldsX (encoderOfX f) i b fs = Some l -> fields_are types unexported (fun p t e => encoderOfX f p t = Some e) i b fs l.
  Proof.
    intros f. induction fs as [|x fs IH]; intros i b l N E; cbn in E; [injection E as <-; constructor|]. assert (N' : forall y, In y fs -> f_name y <> []) by (intros y Y; apply N; right; exact Y).
    destruct (is_nil (getFieldNameX types unexported x)) eqn:X; [apply fa_skip; [apply shown_none; [exact (N x (or_introl eq_refl))|exact X]|exact (IH _ _ _ N' E)]|].
    destruct (encoderOfX f _ _) as [e|] eqn:R; [|discriminate E]. cbn [obind] in E. destruct (structFieldsX (encoderOfX f) (S i) false fs) as [l'|] eqn:L; [|discriminate E]. injection E as <-.
    eapply fa_keep; [apply shown_some; [exact (N x (or_introl eq_refl))|split; [reflexivity|exact X]]|destruct b; reflexivity|exact R|exact (IH _ _ _ N' L)].
  Qed.
  Lemma fields_part : forall f fs i b l, structFieldsX (encoderOfX f) i b fs = Some l -> forall x name, In x fs -> f_name x <> [] -> shown x (Some name) -> exists p e, encoderOfX f p (f_type x) = Some e.
  Proof.
    intros f. induction fs as [|y fs IH]; intros i b l E x name Hx N J; [destruct Hx|]. cbn in E. destruct Hx as [->|Hx].
    - apply shown_some in J; [|exact N]. destruct J as [J1 J]. rewrite J1, J in E. destruct (encoderOfX f _ _) as [e|] eqn:E1; [|discriminate]. eauto.
    - destruct (is_nil _); [eapply IH; eauto|]. destruct (encoderOfX f _ (f_type y)) as [e|] eqn:E1; [|discriminate]. cbn [obind] in E. destruct (structFieldsX (encoderOfX f) (S i) false fs) as [l'|] eqn:E2; [|discriminate]. eapply IH; eauto.
  Qed.
  Lemma ends_settled : (forall p p' t, silent exts p t -> silent exts p' t) -> forall f p t e, encoderOfX f p t = Some e -> settled types unexported exts t.
  Proof.
    intro Pi. induction f as [|f IH]; intros p t e H; [discriminate|]. cbn [JsonExtModel.encoderOfX] in H. destruct (ask exts p t) as [id|] eqn:A.
    - apply st_ext. intros p' Q. apply (Pi p' p) in Q. apply ask_none in Q. congruence.
    - apply st_parts. intros t' R. unfold part in R. destruct (types t) eqn:T; try contradiction.
      + subst. destruct (encoderOfX f _ _) eqn:E; [|discriminate]. eauto.
      + subst. destruct (encoderOfX f _ _) eqn:E; [|discriminate]. eauto.
      + subst. destruct (encoderOfX f _ _) eqn:E; [|discriminate]. eauto.
      + destruct R as (x & name & Hx & J & ->). destruct (structFieldsX (encoderOfX f) 0 true fs) as [l|] eqn:L; [|discriminate]. destruct (fields_part _ _ _ _ _ L _ _ Hx (names _ _ _ T Hx) J) as (p' & e' & X). eauto.
      + destruct (encoderOfX f (p ++ bs " [mapKey]") k) as [y|] eqn:Y; [|discriminate]. cbn [obind] in H. destruct (encoderOfX f (p ++ bs " [mapElem]") t0) as [z|] eqn:Z1; [|discriminate]. destruct R as [-> | ->]; eauto.
  Qed.
End Ends.
