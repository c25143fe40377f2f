(** Proofs for C139. *)
From Verif Require Import Base JsonCompModel JsonConcModel JsonConcSpec.
From Verif Require JsonCompProofs.
Open Scope list_scope.

Section Ind.
  Variable P : encoder -> Prop.
  Variable Q : keyenc -> Prop.
  Hypothesis leaf : forall e, match e with EPtr _ | ESlice _ | EArray _ _ | EStruct _ | EMap _ _ => True | _ => P e end.
  Hypothesis ptr : forall e, P e -> P (EPtr e).
  Hypothesis slice : forall e, P e -> P (ESlice e).
  Hypothesis array : forall n e, P e -> P (EArray n e).
  Hypothesis struct : forall fs, Forall (fun x => P (snd x)) fs -> P (EStruct fs).
  Hypothesis hmap : forall k e, Q k -> P e -> P (EMap k e).
  Hypothesis kleaf : forall k, match k with KString _ | KNumber _ => True | _ => Q k end.
  Hypothesis kstr : forall e, P e -> Q (KString e).
  Hypothesis knum : forall e, P e -> Q (KNumber e).
  Fixpoint enc_ind2 (e : encoder) : P e :=
    match e as e0 return P e0 with
    | EPtr e => ptr e (enc_ind2 e)
    | ESlice e => slice e (enc_ind2 e)
    | EArray n e => array n e (enc_ind2 e)
    | EStruct fs => struct fs ((fix go l : Forall (fun x => P (snd x)) l := match l with [] => Forall_nil _ | (i, e) :: r => Forall_cons (i, e) (enc_ind2 e) (go r) end) fs)
    | EMap k e => hmap k e (key_ind2 k) (enc_ind2 e)
    | EBytes => leaf EBytes | EErr => leaf EErr | EMarsh => leaf EMarsh | EBool => leaf EBool | EInt k => leaf (EInt k) | EFloat64 => leaf EFloat64 | EFloat32 => leaf EFloat32 | EStr => leaf EStr
    | EDynamic => leaf EDynamic | EUnsupported m => leaf (EUnsupported m)
    end
  with key_ind2 (k : keyenc) : Q k :=
    match k as k0 return Q k0 with
    | KString e => kstr e (enc_ind2 e)
    | KNumber e => knum e (enc_ind2 e)
    | KInterface => kleaf KInterface
    | KMethods => kleaf KMethods
    end.
End Ind.

Lemma clean_eq : forall e, clean e = true -> forall a, strip a = strip e -> a = e.
Proof.
  apply (enc_ind2 (fun e => clean e = true -> forall a, strip a = strip e -> a = e) (fun k => cleanK k = true -> forall a, stripK a = stripK k -> a = k)).
  - intros []; try exact Logic.I; intros C a; destruct a; cbn in *; intro H; try discriminate H; try discriminate C; try reflexivity. injection H as ->. reflexivity.
  - intros e IH C a H. destruct a; cbn in H; try discriminate H. injection H as H. rewrite (IH C _ H). reflexivity.
  - intros e IH C a H. destruct a; cbn in H; try discriminate H. injection H as H. rewrite (IH C _ H). reflexivity.
  - intros n e IH C a H. destruct a; cbn in H; try discriminate H. injection H as -> H. rewrite (IH C _ H). reflexivity.
  - intros fs IH C a H. destruct a as [| | | | | | | | | | |gs| | | ]; cbn in H; try discriminate H. injection H as H. f_equal. cbn in C. revert gs H. induction IH as [|[i e] fs He _ IHf]; intros gs H.
    + destruct gs; [reflexivity|discriminate H].
    + destruct gs as [|[j e'] gs]; [discriminate H|]. cbn in H, C. injection H as -> H1 H2. apply andb_true_iff in C. destruct C as [C1 C2]. rewrite (He C1 _ H1), (IHf C2 _ H2). reflexivity.
  - intros k e IHk IHe C a H. destruct a; cbn in H; try discriminate H. injection H as H1 H2. cbn in C. apply andb_true_iff in C. destruct C as [C1 C2]. rewrite (IHk C1 _ H1), (IHe C2 _ H2). reflexivity.
  - intros []; try exact Logic.I; intros C a; destruct a; cbn; intro H; try discriminate H; reflexivity.
  - intros e IH C a H. destruct a; cbn in H; try discriminate H. injection H as H. rewrite (IH C _ H). reflexivity.
  - intros e IH C a H. destruct a; cbn in H; try discriminate H. injection H as H. rewrite (IH C _ H). reflexivity.
Qed.
Lemma cleanK_eq : forall k, cleanK k = true -> forall a, stripK a = stripK k -> a = k.
Proof.
  intros [e|e| |] C a H; destruct a; cbn in H; try discriminate H; try reflexivity; injection H as H; cbn in C; rewrite (clean_eq _ C _ H); reflexivity.
Qed.
Lemma clean_keys_eq : forall e, clean_keys e = true -> forall a, strip_keys a = strip_keys e -> a = e.
Proof.
  apply (enc_ind2 (fun e => clean_keys e = true -> forall a, strip_keys a = strip_keys e -> a = e) (fun _ => True)); try (intros; exact Logic.I).
  - intros []; try exact Logic.I; intros C a; destruct a; cbn in *; intro H; try discriminate H; try reflexivity; injection H as ->; reflexivity.
  - intros e IH C a H. destruct a; cbn in H; try discriminate H. injection H as H. rewrite (IH C _ H). reflexivity.
  - intros e IH C a H. destruct a; cbn in H; try discriminate H. injection H as H. rewrite (IH C _ H). reflexivity.
  - intros n e IH C a H. destruct a; cbn in H; try discriminate H. injection H as -> H. rewrite (IH C _ H). reflexivity.
  - intros fs IH C a H. destruct a as [| | | | | | | | | | |gs| | | ]; cbn in H; try discriminate H. injection H as H. f_equal. cbn in C. revert gs H. induction IH as [|[i e] fs He _ IHf]; intros gs H.
    + destruct gs; [reflexivity|discriminate H].
    + destruct gs as [|[j e'] gs]; [discriminate H|]. cbn in H, C. injection H as -> H1 H2. apply andb_true_iff in C. destruct C as [C1 C2]. rewrite (He C1 _ H1), (IHf C2 _ H2). reflexivity.
  - intros k e _ IHe C a H. destruct a; cbn in H; try discriminate H. injection H as H1 H2. cbn in C. apply andb_true_iff in C. destruct C as [C1 C2]. rewrite (cleanK_eq _ C1 _ H1), (IHe C2 _ H2). reflexivity.
  - intros []; exact Logic.I.
Qed.
Lemma strip_strip : (forall e, strip (strip e) = strip e).
Proof.
  apply (enc_ind2 (fun e => strip (strip e) = strip e) (fun k => stripK (stripK k) = stripK k)); try (intros; cbn; congruence).
  - intros []; try exact Logic.I; reflexivity.
  - intros fs IH. cbn. f_equal. rewrite map_map. induction IH as [|[i e] fs He _ IHf]; [reflexivity|]. cbn in *. rewrite He, IHf. reflexivity.
  - intros []; try exact Logic.I; reflexivity.
Qed.
Lemma stripK_stripK : forall k, stripK (stripK k) = stripK k.
Proof. intros []; cbn; rewrite ?strip_strip; reflexivity. Qed.
Lemma strip_keys_strip : forall e, strip (strip_keys e) = strip e.
Proof.
  apply (enc_ind2 (fun e => strip (strip_keys e) = strip e) (fun _ => True)); try (intros; exact Logic.I); try (intros; cbn; congruence).
  - intros []; try exact Logic.I; reflexivity.
  - intros fs IH. cbn. f_equal. rewrite map_map. induction IH as [|[i e] fs He _ IHf]; [reflexivity|]. cbn in *. rewrite He, IHf. reflexivity.
  - intros k e _ IH. cbn. rewrite stripK_stripK, IH. reflexivity.
  - intros []; exact Logic.I.
Qed.

Section Conc.
  Variable types : nat -> shape.
  Variable typeName : nat -> bytes.
  Notation encoderOf := (JsonCompModel.encoderOf types typeName).
  Notation encoderOfType := (JsonConcModel.encoderOfType types typeName).
  Notation keyEncoderOf := (JsonCompModel.keyEncoderOf types).

  (** The prefix is of no importance *)
  Lemma prefix_same : forall f p p' t e e', encoderOf f p t = Some e -> encoderOf f p' t = Some e' -> strip e = strip e'.
  Proof.
    induction f as [|f IH]; intros p p' t e e' H H'; [discriminate H|]. cbn [JsonCompModel.encoderOf] in H, H'. destruct (types t) as [| | | |k| | | |t1|t1|n t1|fs|k t1| | | | | ] eqn:T;
      try (injection H as <-; injection H' as <-; reflexivity).
    - destruct (encoderOf f (p ++ _) t1) as [x|] eqn:X; [|discriminate H]. destruct (encoderOf f (p' ++ _) t1) as [x'|] eqn:X'; [|discriminate H']. injection H as <-. injection H' as <-. cbn. rewrite (IH _ _ _ _ _ X X'). reflexivity.
    - destruct (encoderOf f (p ++ _) t1) as [x|] eqn:X; [|discriminate H]. destruct (encoderOf f (p' ++ _) t1) as [x'|] eqn:X'; [|discriminate H']. injection H as <-. injection H' as <-. cbn. rewrite (IH _ _ _ _ _ X X'). reflexivity.
    - destruct (encoderOf f (p ++ _) t1) as [x|] eqn:X; [|discriminate H]. destruct (encoderOf f (p' ++ _) t1) as [x'|] eqn:X'; [|discriminate H']. injection H as <-. injection H' as <-. cbn. rewrite (IH _ _ _ _ _ X X'). reflexivity.
    - rewrite H in H'. injection H' as <-. reflexivity.
    - destruct (encoderOf f (p ++ bs " [mapKey]") k) as [y|] eqn:Y; [|discriminate H]. destruct (encoderOf f (p' ++ bs " [mapKey]") k) as [y'|] eqn:Y'; [|discriminate H'].
      cbn [obind] in H, H'. destruct (encoderOf f (p ++ bs " [mapElem]") t1) as [x|] eqn:X; [|discriminate H]. destruct (encoderOf f (p' ++ bs " [mapElem]") t1) as [x'|] eqn:X'; [|discriminate H'].
      injection H as <-. injection H' as <-. cbn. rewrite (IH _ _ _ _ _ X X'). pose proof (IH _ _ _ _ _ Y Y') as K. f_equal. unfold JsonCompModel.keyEncoderOf. destruct (types k); cbn; rewrite ?K; reflexivity.
  Qed.
  Lemma any_same : forall f f' p p' t e e', encoderOf f p t = Some e -> encoderOf f' p' t = Some e' -> strip e = strip e'.
  Proof.
    intros f f' p p' t e e' H H'. apply (prefix_same (f + f') p p' t); eapply JsonCompProofs.encoderOf_mono; try eassumption; lia.
  Qed.
  Lemma key_same : forall k e e', strip e = strip e' -> stripK (keyEncoderOf k e) = stripK (keyEncoderOf k e').
  Proof. intros k e e' K. unfold JsonCompModel.keyEncoderOf. destruct (types k); cbn; rewrite ?K; reflexivity. Qed.

  Definition goodE (t : nat) (e : encoder) : Prop := exists f e0, encoderOf f [] t = Some e0 /\ strip_keys e = strip_keys e0.
  Definition goodK (k : nat) (ke : keyenc) : Prop := exists f p e0, encoderOf f p k = Some e0 /\ stripK ke = stripK (keyEncoderOf k e0).
  Fixpoint fine {A} (b : bool) (P : A -> Prop) (p : prog A) : Prop :=
    match p with
    | Ret a => P a
    | Never => b = true
    | LoadE t f => forall x, match x with Some e => goodE t e | None => True end -> fine b P (f x)
    | StoreE t e p => goodE t e /\ fine b P p
    | LoadK k f => forall x, match x with Some e => goodK k e | None => True end -> fine b P (f x)
    | StoreK k e p => goodK k e /\ fine b P p
    end.
  Lemma fine_bind : forall A B b (P : A -> Prop) (R : B -> Prop) p q, fine b P p -> (forall a, P a -> fine b R (q a)) -> fine b R (bind p q).
  Proof.
    intros A B b P R p q. induction p as [a| |t f IH|t e p IH|k f IH|k e p IH]; cbn; intros F K.
    - exact (K a F).
    - exact F.
    - intros x X. exact (IH x (F x X) K).
    - destruct F as [G F]. split; [exact G|exact (IH F K)].
    - intros x X. exact (IH x (F x X) K).
    - destruct F as [G F]. split; [exact G|exact (IH F K)].
  Qed.
  Lemma fine_impl : forall A b (P R : A -> Prop) p, fine b P p -> (forall a, P a -> R a) -> fine b R p.
  Proof.
    intros A b P R p. induction p as [a| |t f IH|t e p IH|k f IH|k e p IH]; cbn; intros F K; auto.
    - destruct F. auto.
    - destruct F. auto.
  Qed.
  Lemma mapKey_fine : forall f p k ek, (forall p e0, encoderOf f p k = Some e0 -> fine false (fun e => strip_keys e = strip_keys e0) (encoderOfType f p k)) -> encoderOf f (p ++ bs " [mapKey]") k = Some ek ->
    fine false (fun ke => stripK ke = stripK (keyEncoderOf k ek)) (encoderOfMapKey types (encoderOfType f) p k).
  Proof.
    intros f p k ek IH H. cbn. intros [ke|] X; cbn.
    - destruct X as (f1 & p1 & e1 & X1 & X2). rewrite X2. apply key_same. exact (any_same _ _ _ _ _ _ _ X1 H).
    - eapply fine_bind; [exact (IH _ _ H)|]. intros e E. cbn beta in E. cbn. assert (K : strip e = strip ek) by (rewrite <- strip_keys_strip, E; apply strip_keys_strip). split; [|exact (key_same _ _ _ K)].
      exists f, (p ++ bs " [mapKey]"), ek. split; [exact H|exact (key_same _ _ _ K)].
  Qed.
  Lemma build_fine : forall f p t e0, encoderOf f p t = Some e0 -> fine false (fun e => strip_keys e = strip_keys e0) (encoderOfType f p t).
  Proof.
    induction f as [|f IH]; intros p t e0 H; [discriminate H|]. cbn [JsonCompModel.encoderOf] in H. cbn [JsonConcModel.encoderOfType]. destruct (types t) as [| | | |k| | | |t1|t1|n t1|fs|k t1| | | | | ] eqn:T;
      try (injection H as <-; reflexivity).
    - destruct (encoderOf f (p ++ _) t1) as [x|] eqn:X; [|discriminate H]. injection H as <-. eapply fine_bind; [exact (IH _ _ _ X)|]. intros e E. cbn in *. rewrite E. reflexivity.
    - destruct (encoderOf f (p ++ _) t1) as [x|] eqn:X; [|discriminate H]. injection H as <-. eapply fine_bind; [exact (IH _ _ _ X)|]. intros e E. cbn in *. rewrite E. reflexivity.
    - destruct (encoderOf f (p ++ _) t1) as [x|] eqn:X; [|discriminate H]. injection H as <-. eapply fine_bind; [exact (IH _ _ _ X)|]. intros e E. cbn in *. rewrite E. reflexivity.
    - destruct (structFields types (encoderOf f) 0 true fs) as [l0|] eqn:X; [|discriminate H]. injection H as <-. clear T t p.
      assert (F : forall fs i first l0, structFields types (encoderOf f) i first fs = Some l0 ->
        fine false (fun l => map (fun x => match x with (i, e) => (i, strip_keys e) end) l = map (fun x => match x with (i, e) => (i, strip_keys e) end) l0) (encoderOfFields types (encoderOfType f) i first fs)).
      { clear X fs l0. induction fs as [|fd fs IHf]; intros i first l0 X; cbn in X |- *; [injection X as <-; reflexivity|]. destruct (is_nil (getFieldName types fd)); [exact (IHf _ _ _ X)|].
        destruct (encoderOf f _ (f_type fd)) as [x|] eqn:Ex; [|discriminate X]. cbn [obind] in X. destruct (structFields types (encoderOf f) (S i) false fs) as [l1|] eqn:El; [|discriminate X]. injection X as <-.
        eapply fine_bind; [exact (IH _ _ _ Ex)|]. intros e E. eapply fine_bind; [exact (IHf _ _ _ El)|]. intros l L. cbn in *. rewrite E, L. reflexivity. }
      eapply fine_bind; [exact (F _ _ _ _ X)|]. intros l L. cbn in *. rewrite L. reflexivity.
    - destruct (encoderOf f (p ++ bs " [mapKey]") k) as [y|] eqn:Y; [|discriminate H]. cbn [obind] in H. destruct (encoderOf f (p ++ bs " [mapElem]") t1) as [x|] eqn:X; [|discriminate H]. injection H as <-.
      eapply fine_bind; [exact (mapKey_fine _ _ _ _ (fun p e0 => IH p k e0) Y)|]. intros ke K. eapply fine_bind; [exact (IH _ _ _ X)|]. intros e E. cbn in *. rewrite K, E. reflexivity.
  Qed.
  (** Success does not depend on the prefix *)
  Lemma defined_prefix : forall f p p' t e, encoderOf f p t = Some e -> exists e', encoderOf f p' t = Some e'.
  Proof.
    induction f as [|f IH]; intros p p' t e H; [discriminate H|]. cbn [JsonCompModel.encoderOf] in H |- *. destruct (types t) as [| | | |k| | | |t1|t1|n t1|fs|k t1| | | | | ] eqn:T; try (eexists; reflexivity).
    - destruct (encoderOf f (p ++ _) t1) as [x|] eqn:X; [|discriminate H]. destruct (IH _ (p' ++ bs " [ptrElem]") _ _ X) as [x' ->]. eexists. reflexivity.
    - destruct (encoderOf f (p ++ _) t1) as [x|] eqn:X; [|discriminate H]. destruct (IH _ (p' ++ bs " [sliceElem]") _ _ X) as [x' ->]. eexists. reflexivity.
    - destruct (encoderOf f (p ++ _) t1) as [x|] eqn:X; [|discriminate H]. destruct (IH _ (p' ++ bs " [sliceElem]") _ _ X) as [x' ->]. eexists. reflexivity.
    - exists e. exact H.
    - destruct (encoderOf f (p ++ bs " [mapKey]") k) as [y|] eqn:Y; [|discriminate H]. cbn [obind] in H. destruct (encoderOf f (p ++ bs " [mapElem]") t1) as [x|] eqn:X; [|discriminate H].
      destruct (IH _ (p' ++ bs " [mapKey]") _ _ Y) as [y' ->]. destruct (IH _ (p' ++ bs " [mapElem]") _ _ X) as [x' X']. cbn [obind]. rewrite X'. eexists. reflexivity.
  Qed.
  Lemma fields_mono : forall f f' fs i first l, (f <= f')%nat -> structFields types (encoderOf f) i first fs = Some l -> structFields types (encoderOf f') i first fs = Some l.
  Proof.
    intros f f' fs i first l L. revert i first l. induction fs as [|fd fs IH]; intros i first l H; cbn in H |- *; [exact H|]. destruct (is_nil (getFieldName types fd)); [exact (IH _ _ _ H)|].
    destruct (encoderOf f _ (f_type fd)) as [x|] eqn:X; [|discriminate H]. rewrite (JsonCompProofs.encoderOf_mono types typeName f f' _ _ _ L X). cbn [obind] in *.
    destruct (structFields types (encoderOf f) (S i) false fs) as [l1|] eqn:E; [|discriminate H]. rewrite (IH _ _ _ E). exact H.
  Qed.
  Definition wellE (p : bytes) (t : nat) (e : encoder) : Prop := exists f e0, encoderOf f p t = Some e0 /\ strip_keys e = strip_keys e0.
  Definition wellK (k : nat) (ke : keyenc) : Prop := goodK k ke.
  Notation mono := (JsonCompProofs.encoderOf_mono types typeName).
  Lemma mapKey_any : forall f p k, (forall p, fine true (wellE p k) (encoderOfType f p k)) -> fine true (goodK k) (encoderOfMapKey types (encoderOfType f) p k).
  Proof.
    intros f p k IH. cbn. intros [ke|] X; cbn; [exact X|]. eapply fine_bind; [exact (IH _)|]. intros e (f0 & e0 & E1 & E2). cbn.
    assert (K : strip e = strip e0) by (rewrite <- strip_keys_strip, E2; apply strip_keys_strip). assert (G : goodK k (keyEncoderOf k e)) by (exists f0, (p ++ bs " [mapKey]"), e0; split; [exact E1|exact (key_same _ _ _ K)]).
    split; exact G.
  Qed.
  Lemma build_any : forall f p t, fine true (wellE p t) (encoderOfType f p t).
  Proof.
    induction f as [|f IH]; intros p t; [reflexivity|]. cbn [JsonConcModel.encoderOfType]. destruct (types t) as [| | | |k| | | |t1|t1|n t1|fs|k t1| | | | | ] eqn:T;
      try (exists 1%nat; eexists; cbn [JsonCompModel.encoderOf]; rewrite T; split; reflexivity).
    - eapply fine_bind; [exact (IH _ _)|]. intros e (f0 & e0 & E1 & E2). exists (S f0), (EPtr e0). cbn [JsonCompModel.encoderOf strip_keys]. rewrite T, E1, E2. split; reflexivity.
    - eapply fine_bind; [exact (IH _ _)|]. intros e (f0 & e0 & E1 & E2). exists (S f0), (ESlice e0). cbn [JsonCompModel.encoderOf strip_keys]. rewrite T, E1, E2. split; reflexivity.
    - eapply fine_bind; [exact (IH _ _)|]. intros e (f0 & e0 & E1 & E2). exists (S f0), (EArray n e0). cbn [JsonCompModel.encoderOf strip_keys]. rewrite T, E1, E2. split; reflexivity.
    - assert (F : forall fs i first, fine true (fun l => exists f0 l0, structFields types (encoderOf f0) i first fs = Some l0 /\
        map (fun x => match x with (i, e) => (i, strip_keys e) end) l = map (fun x => match x with (i, e) => (i, strip_keys e) end) l0) (encoderOfFields types (encoderOfType f) i first fs)).
      { clear T fs p t. induction fs as [|fd fs IHf]; intros i first; cbn; [exists O, []; split; reflexivity|]. destruct (is_nil (getFieldName types fd)); [exact (IHf _ _)|].
        eapply fine_bind; [exact (IH _ _)|]. intros e (f0 & e0 & E1 & E2). eapply fine_bind; [exact (IHf _ _)|]. intros l (f1 & l0 & L1 & L2). cbn.
        exists (f0 + f1)%nat. eexists. rewrite (mono f0 (f0 + f1) _ _ _ ltac:(lia) E1). cbn [obind]. rewrite (fields_mono f1 (f0 + f1) _ _ _ _ ltac:(lia) L1). split; [reflexivity|]. cbn. rewrite E2, L2. reflexivity. }
      eapply fine_bind; [exact (F _ _ _)|]. intros l (f0 & l0 & L1 & L2). exists (S f0), (EStruct l0). cbn [JsonCompModel.encoderOf strip_keys]. rewrite T, L1, L2. split; reflexivity.
    - eapply fine_bind; [exact (mapKey_any _ _ _ (fun p => IH p k))|]. intros ke (f0 & p0 & e0 & K1 & K2). eapply fine_bind; [exact (IH _ _)|]. intros e (f1 & e1 & E1 & E2).
      destruct (defined_prefix _ _ (p ++ bs " [mapKey]") _ _ K1) as [e2 K3]. exists (S (f0 + f1)). eexists. cbn [JsonCompModel.encoderOf]. rewrite T, (mono f0 (f0 + f1) _ _ _ ltac:(lia) K3). cbn [obind].
      rewrite (mono f1 (f0 + f1) _ _ _ ltac:(lia) E1). split; [reflexivity|]. cbn. rewrite E2, K2. f_equal. apply key_same. exact (prefix_same _ _ _ _ _ _ K1 K3).
  Qed.

  (** * Calls *)
  Definition wellR (c : call) (r : result) : Prop :=
    match c, r with
    | CType t, inl e | CObject t, inl e => goodE t e
    | CKey _ t, inr ke => goodK t ke
    | _, _ => False
    end.
  Lemma top_fine : forall b f t, fine b (wellE [] t) (encoderOfType f [] t) -> fine b (goodE t) (EncoderOfType types typeName f t).
  Proof. intros b f t F. cbn. intros [e|] X; cbn; [exact X|]. eapply fine_bind; [exact F|]. intros e E. cbn. split; exact E. Qed.
  Lemma program_fine : forall f c, fine true (wellR c) (program types typeName f c).
  Proof.
    intros f [t|t|p t]; cbn [program].
    - eapply fine_bind; [exact (top_fine _ _ _ (build_any f [] t))|]. intros e E. exact E.
    - eapply (fine_bind _ _ true (goodE t)); [|intros e E; exact E]. cbn [EncoderOfObject fine]. intros [e|] X; [exact X|]. exact (top_fine _ _ _ (build_any f [] t)).
    - eapply fine_bind; [exact (mapKey_any f p t (fun p => build_any f p t))|]. intros e E. exact E.
  Qed.
  Definition ends (f : nat) (c : call) : Prop := match c with CType t | CObject t => encoderOf f [] t <> None | CKey p t => encoderOf f (p ++ bs " [mapKey]") t <> None end.
  Lemma program_ends : forall f c, ends f c -> fine false (wellR c) (program types typeName f c).
  Proof.
    intros f [t|t|p t] En; cbn [program ends] in *.
    - destruct (encoderOf f [] t) as [e0|] eqn:E; [|contradiction]. eapply fine_bind; [apply (top_fine false)|intros e X; exact X]. eapply fine_impl; [exact (build_fine _ _ _ _ E)|]. intros e X. exists f, e0. auto.
    - destruct (encoderOf f [] t) as [e0|] eqn:E; [|contradiction]. eapply (fine_bind _ _ false (goodE t)); [|intros e X; exact X]. cbn [EncoderOfObject fine]. intros [e|] X; [exact X|].
      apply (top_fine false). eapply fine_impl; [exact (build_fine _ _ _ _ E)|]. intros a Y. exists f, e0. auto.
    - destruct (encoderOf f (p ++ bs " [mapKey]") t) as [e0|] eqn:E; [|contradiction]. eapply fine_bind; [exact (mapKey_fine f p t e0 (fun p e => build_fine f p t e) E)|].
      intros ke K. exists f, (p ++ bs " [mapKey]"), e0. auto.
  Qed.
  Notation step := (JsonConcModel.step types typeName).
  Notation run := (JsonConcModel.run types typeName).
  Record inv (fuel : nat) (s : state) : Prop := {
    v_e : forall t e, find (ecache s) t = Some e -> goodE t e;
    v_k : forall k e, find (kcache s) k = Some e -> goodK k e;
    v_calls : forall g c p, calls s g = Some (c, p) -> fine true (wellR c) p /\ (ends fuel c -> fine false (wellR c) p)
  }.
  Lemma inv_step : forall fuel s e s', inv fuel s -> step fuel s e = Some s' -> inv fuel s'.
  Proof.
    intros fuel s e s' [He Hk Hc] E.
    assert (Ca : forall g c p, fine true (wellR c) p /\ (ends fuel c -> fine false (wellR c) p) -> forall g' c' p', set (calls s) g (c, p) g' = Some (c', p') -> fine true (wellR c') p' /\ (ends fuel c' -> fine false (wellR c') p')).
    { intros g c p F g' c' p' X. unfold set in X. destruct (g' =? g)%nat; [injection X as <- <-; exact F|exact (Hc _ _ _ X)]. }
    destruct e as [g c|g]; cbn [JsonConcModel.step] in E.
    - destruct (calls s g); [discriminate E|]. injection E as <-. split; cbn [ecache kcache calls]; [exact He|exact Hk|]. apply Ca. split; [apply program_fine|apply program_ends].
    - destruct (calls s g) as [[c p]|] eqn:Q; [|discriminate E]. destruct (Hc _ _ _ Q) as [F1 F2]. destruct p as [a| |t f|t e p|k f|k e p]; try discriminate E; injection E as <-.
      + split; cbn [ecache kcache calls]; [exact He|exact Hk|]. assert (G : match find (ecache s) t with Some e => goodE t e | None => True end) by (destruct (find (ecache s) t) eqn:X; [exact (He _ _ X)|exact Logic.I]).
        apply Ca. split; [exact (F1 _ G)|intro En; exact (F2 En _ G)].
      + destruct F1 as [G F1]. split; cbn [ecache kcache calls]; [|exact Hk|]; [|apply Ca; split; [exact F1|intro En; exact (proj2 (F2 En))]].
        intros t' e' X. cbn in X. destruct (Nat.eqb_spec t t') as [->|N]; [injection X as <-; exact G|exact (He _ _ X)].
      + split; cbn [ecache kcache calls]; [exact He|exact Hk|]. assert (G : match find (kcache s) k with Some e => goodK k e | None => True end) by (destruct (find (kcache s) k) eqn:X; [exact (Hk _ _ X)|exact Logic.I]).
        apply Ca. split; [exact (F1 _ G)|intro En; exact (F2 En _ G)].
      + destruct F1 as [G F1]. split; cbn [ecache kcache calls]; [exact He| |]; [|apply Ca; split; [exact F1|intro En; exact (proj2 (F2 En))]].
        intros t' e' X. cbn in X. destruct (Nat.eqb_spec k t') as [->|N]; [injection X as <-; exact G|exact (Hk _ _ X)].
  Qed.
  Lemma inv_run_from : forall fuel evs s s', inv fuel s -> run fuel s evs = Some s' -> inv fuel s'.
  Proof. intros fuel. induction evs as [|e evs IH]; intros s s' Hi R; cbn in R; [injection R as <-; exact Hi|]. destruct (step fuel s e) as [s1|] eqn:E; [|discriminate R]. exact (IH _ _ (inv_step _ _ _ _ Hi E) R). Qed.
  Lemma inv_run : forall fuel evs s, run fuel init evs = Some s -> inv fuel s.
  Proof. intros fuel evs s. apply inv_run_from. split; cbn; discriminate. Qed.
  Lemma find_up : forall fuel evs s s' t, run fuel s evs = Some s' -> find (ecache s) t <> None -> find (ecache s') t <> None.
  Proof.
    intros fuel. induction evs as [|e evs IH]; intros s s' t R H; cbn in R; [injection R as <-; exact H|]. destruct (step fuel s e) as [s1|] eqn:E; [|discriminate R]. apply (IH _ _ _ R). clear IH R.
    destruct e as [g c|g]; cbn in E; destruct (calls s g) as [[c0 p]|]; try discriminate E; [injection E as <-; exact H|]. destruct p; try discriminate E; injection E as <-; try exact H.
    cbn. destruct (_ =? _)%nat; [discriminate|exact H].
  Qed.
  Lemma run_app : forall fuel a b s, run fuel s (a ++ b) = match run fuel s a with Some s' => run fuel s' b | None => None end.
  Proof. intros fuel. induction a as [|e a IH]; intros b s; [reflexivity|]. cbn. destruct (step fuel s e); [apply IH|reflexivity]. Qed.
  Lemma set_same : forall f g x, set f g x g = Some x.
  Proof. intros f g x. unfold set. rewrite Nat.eqb_refl. reflexivity. Qed.
  Lemma alone : forall fuel c g p s, inv fuel s -> calls s g = Some (c, p) -> fine false (wellR c) p -> exists n s' r, run fuel s (repeat (Step g) n) = Some s' /\ calls s' g = Some (c, Ret r) /\ wellR c r.
  Proof.
    intros fuel c g. induction p as [a| |t f IH|t e p IH|k f IH|k e p IH]; intros s Hi Q F.
    - exists O, s, a. cbn. auto.
    - discriminate F.
    - assert (E : step fuel s (Step g) = Some (mkState (ecache s) (kcache s) (set (calls s) g (c, f (find (ecache s) t))))) by (cbn; rewrite Q; reflexivity).
      assert (G : match find (ecache s) t with Some e => goodE t e | None => True end) by (destruct (find (ecache s) t) eqn:X; [exact (v_e _ _ Hi _ _ X)|exact Logic.I]).
      destruct (IH _ _ (inv_step _ _ _ _ Hi E) (set_same _ _ _) (F _ G)) as (n & s' & r & R & X). exists (S n), s', r. cbn [repeat JsonConcModel.run]. rewrite E. auto.
    - assert (E : step fuel s (Step g) = Some (mkState ((t, e) :: ecache s) (kcache s) (set (calls s) g (c, p)))) by (cbn; rewrite Q; reflexivity).
      destruct (IH _ (inv_step _ _ _ _ Hi E) (set_same _ _ _) (proj2 F)) as (n & s' & r & R & X). exists (S n), s', r. cbn [repeat JsonConcModel.run]. rewrite E. auto.
    - assert (E : step fuel s (Step g) = Some (mkState (ecache s) (kcache s) (set (calls s) g (c, f (find (kcache s) k))))) by (cbn; rewrite Q; reflexivity).
      assert (G : match find (kcache s) k with Some e => goodK k e | None => True end) by (destruct (find (kcache s) k) eqn:X; [exact (v_k _ _ Hi _ _ X)|exact Logic.I]).
      destruct (IH _ _ (inv_step _ _ _ _ Hi E) (set_same _ _ _) (F _ G)) as (n & s' & r & R & X). exists (S n), s', r. cbn [repeat JsonConcModel.run]. rewrite E. auto.
    - assert (E : step fuel s (Step g) = Some (mkState (ecache s) ((k, e) :: kcache s) (set (calls s) g (c, p)))) by (cbn; rewrite Q; reflexivity).
      destruct (IH _ (inv_step _ _ _ _ Hi E) (set_same _ _ _) (proj2 F)) as (n & s' & r & R & X). exists (S n), s', r. cbn [repeat JsonConcModel.run]. rewrite E. auto.
  Qed.
  (** A program that has an encoder of [t] in the cache when it gives a result *)
  Fixpoint lands {A} (t : nat) (p : prog A) : Prop :=
    match p with
    | Ret _ => False
    | Never => True
    | LoadE t' f => forall x, (t' = t /\ x <> None) \/ lands t (f x)
    | StoreE t' _ p => t' = t \/ lands t p
    | LoadK _ f => forall x, lands t (f x)
    | StoreK _ _ p => lands t p
    end.
  Lemma lands_bind : forall A B t (p : prog A) (q : A -> prog B), (forall a, lands t (q a)) -> lands t (bind p q).
  Proof.
    intros A B t p q H. induction p as [a| |t' f IH|t' e p IH|k f IH|k e p IH]; cbn; auto. 
  Qed.
  Lemma lands_left : forall A B t (p : prog A) (q : A -> prog B), lands t p -> lands t (bind p q).
  Proof.
    intros A B t p q H. induction p as [a| |t' f IH|t' e p IH|k f IH|k e p IH]; cbn in *; auto; try contradiction.
    - intro x. destruct (H x) as [X|X]; [left; exact X|right; exact (IH _ X)].
    - destruct H as [X|X]; [left; exact X|right; exact (IH X)].
  Qed.
  Lemma top_lands : forall f t, lands t (EncoderOfType types typeName f t).
  Proof. intros f t. cbn. intros [e|]; [left; split; [reflexivity|discriminate]|right]. apply lands_bind. intro a. cbn. left. reflexivity. Qed.
  Lemma prog_lands : forall f t c, c = CType t \/ c = CObject t -> lands t (program types typeName f c).
  Proof.
    intros f t c [-> | ->]; cbn [program]; apply lands_left; [apply top_lands|]. intros [e|]; [left; split; [reflexivity|discriminate]|right; apply top_lands].
  Qed.
  Definition kept (s : state) : Prop := forall g t c p, (c = CType t \/ c = CObject t) -> calls s g = Some (c, p) -> find (ecache s) t <> None \/ lands t p.
  Lemma kept_step : forall fuel s e s', kept s -> step fuel s e = Some s' -> kept s'.
  Proof.
    intros fuel s e s' K E. assert (E0 := E).
    assert (U : forall t, find (ecache s) t <> None -> find (ecache s') t <> None) by (intros t H; apply (find_up fuel [e] s s' t); [cbn; rewrite E0; reflexivity|exact H]). clear E0.
    assert (Ca : forall g0 c0 p0, calls s' = set (calls s) g0 (c0, p0) -> (forall t, c0 = CType t \/ c0 = CObject t -> find (ecache s') t <> None \/ lands t p0) -> kept s').
    { intros g0 c0 p0 Eq H g t c p Hc X. rewrite Eq in X. unfold set in X. destruct (g =? g0)%nat; [injection X as <- <-; exact (H _ Hc)|]. destruct (K _ _ _ _ Hc X) as [Y|Y]; auto. }
    destruct e as [g c|g]; cbn [JsonConcModel.step] in E.
    - destruct (calls s g); [discriminate E|]. injection E as <-. apply (Ca g c (program types typeName fuel c)); [reflexivity|]. intros t Hc. right. exact (prog_lands _ _ _ Hc).
    - destruct (calls s g) as [[c p]|] eqn:Q; [|discriminate E]. destruct p as [a| |t f|t e p|k f|k e p]; try discriminate E; injection E as <-; (eapply Ca; [reflexivity|]); intros t' Hc; cbn [ecache];
        destruct (K _ _ _ _ Hc Q) as [Y|Y]; try (left; exact (U _ Y)).
      + cbn in Y. destruct (Y (find (ecache s) t)) as [[-> X]|X]; auto.
      + cbn in Y. destruct Y as [->|X]; [left; cbn; rewrite Nat.eqb_refl; discriminate|right; exact X].
      + right. exact (Y _).
      + right. exact Y.
  Qed.
  Lemma kept_run_from : forall fuel evs s s', kept s -> run fuel s evs = Some s' -> kept s'.
  Proof. intros fuel. induction evs as [|e evs IH]; intros s s' Hi R; cbn in R; [injection R as <-; exact Hi|]. destruct (step fuel s e) as [s1|] eqn:E; [|discriminate R]. exact (IH _ _ (kept_step _ _ _ _ Hi E) R). Qed.
  Lemma kept_run : forall fuel evs s, run fuel init evs = Some s -> kept s.
  Proof. intros fuel evs s. apply kept_run_from. intros g t c p _ X. discriminate X. Qed.
End Conc.
