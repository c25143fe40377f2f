From Verif Require Import Base JsonIntModel JsonStrModel JsonFloatModel JsonCompModel MemModel MemSpec.
From Flocq Require Import IEEE754.Bits.
Open Scope Z_scope.
Open Scope list_scope.

Section Proofs.
  Variable kinds : nat -> kind.
  Variable typeName : nat -> bytes.
  Variable size : nat -> Z.
  Variable depth : nat -> nat.
  Variable bytesType : nat.
  Variable implErr implMarsh : nat -> bool.
  Variable errorText : mem -> nat -> option ptr -> outcome bytes.
  Variable marshalText : mem -> nat -> option ptr -> outcome (bytes + bytes).
  Variable ff64 : binary64 -> bytes.
  Variable ff32 : binary32 -> bytes.
  Notation shapeOf := (shapeOf kinds bytesType implErr implMarsh).
  Notation direct := (direct kinds).
  Notation just_unsafe := (just_unsafe kinds).
  Notation in_interface := (in_interface kinds).
  Notation LikePtr := (LikePtr kinds depth).
  Notation UnsafeIndirect := (UnsafeIndirect kinds depth).
  Notation holds := (holds kinds size bytesType implErr implMarsh errorText marshalText).
  Notation holds_seq := (holds_seq kinds size bytesType implErr implMarsh errorText marshalText).
  Notation holds_fields := (holds_fields kinds size bytesType implErr implMarsh errorText marshalText).
  Notation holds_map := (holds_map kinds size bytesType implErr implMarsh errorText marshalText).
  Notation held := (held kinds size bytesType implErr implMarsh errorText marshalText).
  Notation encoderOfM := (encoderOfM kinds typeName size bytesType implErr implMarsh).
  Notation EncoderOfM := (EncoderOfM kinds typeName size depth bytesType implErr implMarsh).
  Notation structFieldsM := (structFieldsM kinds bytesType implErr implMarsh).
  Notation keyEncoderOfM := (keyEncoderOfM kinds bytesType).
  Notation keyEncOf := (keyEncOf kinds typeName size bytesType implErr implMarsh).
  Notation encodeAt := (encodeAt kinds typeName size depth bytesType implErr implMarsh errorText marshalText ff64 ff32).
  Notation encoderOf := (JsonCompModel.encoderOf shapeOf typeName).
  Notation structFields := (JsonCompModel.structFields shapeOf).

  Hypothesis TOK : types_ok kinds bytesType depth.
  Hypothesis METH : forall t, just_unsafe t -> implErr t = false /\ implMarsh t = false.

  (** ** Pointer-like types *)
  Lemma like_sound : forall f t, likePtrType kinds f t = true -> direct t.
  Proof.
    induction f as [|f IH]; intros t; cbn [likePtrType]; [discriminate|].
    destruct (kinds t) as [| | | | |t'|t'|[|[|n]] t'|[|fd [|]]|k t'| | | | | |] eqn:K; cbn; try discriminate; intros H;
      eauto using d_ptr, d_map, d_chan, d_func, d_array, d_struct.
  Qed.
  Lemma LikePtr_sound : forall t, LikePtr t = true -> direct t.
  Proof.
    intros t. unfold MemModel.LikePtr. destruct (kinds t) eqn:K; try discriminate;
      eauto using d_ptr, d_map, d_chan, d_func; apply like_sound.
  Qed.
  Lemma like_complete : forall t, direct t -> forall f, (depth t < f)%nat -> likePtrType kinds f t = true \/ just_unsafe t.
  Proof.
    destruct TOK as (DS & DA & _).
    intros t D. induction D as [t t' K|t k t' K|t K|t K|t K|t fd K D IH|t t' K D IH]; intros f Hf;
      (destruct f as [|f]; [lia|]); cbn [likePtrType]; rewrite K; cbn; auto using j_unsafe.
    - assert (L : (depth (m_type fd) < depth t)%nat) by (eapply DS; [exact K|now left]).
      destruct (IH f ltac:(lia)) as [H|H]; eauto using j_struct.
    - assert (L : (depth t' < depth t)%nat) by (eapply DA; exact K).
      destruct (IH f ltac:(lia)) as [H|H]; eauto using j_array.
  Qed.
  Lemma LikePtr_complete : forall t, direct t -> LikePtr t = true \/ just_unsafe t.
  Proof.
    intros t D. pose proof (like_complete t D (S (depth t)) ltac:(lia)) as H. unfold MemModel.LikePtr.
    destruct D as [t t' K|t k t' K|t K|t K|t K|t fd K D|t t' K D]; rewrite K; auto using j_unsafe.
  Qed.
  Lemma just_direct : forall t, just_unsafe t -> direct t.
  Proof. intros t J. induction J; eauto using d_unsafe, d_struct, d_array. Qed.
  Lemma just_not_like : forall t, just_unsafe t -> forall f, likePtrType kinds f t = false.
  Proof.
    intros t J. induction J as [t K|t fd K J IH|t t' K J IH]; intros [|f]; cbn [likePtrType]; auto; rewrite K; cbn; auto.
  Qed.

  Lemma load_at : forall m p c, at_ m p c -> load m (Some p) = Done c.
  Proof. intros m [b o] c H. unfold load. unfold at_ in H. cbn in H. now rewrite H. Qed.
  Lemma add_plus : forall p x, add (Some p) x = Some (plus p x).
  Proof. intros [b o] x. reflexivity. Qed.
  Lemma loadPtr_at : forall m p q, at_ m p (CPtr q) -> loadPtr m (Some p) = Done q.
  Proof. intros m p q H. unfold loadPtr. now rewrite (load_at _ _ _ H). Qed.
  Lemma loadInt_at : forall k m p z, at_ m p (CInt k z) -> loadInt k m (Some p) = Done z.
  Proof. intros k m p z H. unfold loadInt. rewrite (load_at _ _ _ H). cbn. now destruct k. Qed.
  Lemma loadN_at : forall s m d, bytes_at m d s -> loadN m d (List.length s) = Done s.
  Proof.
    induction s as [|b s IH]; intros m d H; auto. cbn [bytes_at] in H. destruct H as (p & -> & A & R).
    cbn [List.length loadN]. rewrite (loadInt_at _ _ _ _ A). cbn [bind]. rewrite add_plus, (IH _ _ R). reflexivity.
  Qed.
  Lemma loadString_at : forall m p d s, at_ m p (CPtr d) -> at_ m (plus p 8) (CInt I64 (lenZ s)) -> bytes_at m d s ->
    loadString m (Some p) = Done s.
  Proof.
    intros m p d s A L B. unfold loadString. rewrite (loadPtr_at _ _ _ A). cbn [bind]. rewrite add_plus, (loadInt_at _ _ _ _ L).
    cbn [bind]. unfold lenZ. rewrite Nat2Z.id. now apply loadN_at.
  Qed.

  (** ** UnsafeIndirect *)
  Lemma indirect_ok : forall m t p i, ~ just_unsafe t -> in_interface m t p i -> UnsafeIndirect m t (Some p) = Done i.
  Proof.
    intros m t p i NJ H. unfold MemModel.UnsafeIndirect.
    destruct H as [t p K A|t p t' w K A W|t p K A|t p t' w K A W|t p w D A|t p D NI].
    - rewrite K. unfold loadEFace. now rewrite (load_at _ _ _ A).
    - rewrite K. unfold loadEFace. rewrite (load_at _ _ _ A). cbn [bind]. rewrite add_plus, (loadPtr_at _ _ _ W). reflexivity.
    - rewrite K. unfold IFaceToEFace. now rewrite (load_at _ _ _ A).
    - rewrite K. unfold IFaceToEFace. rewrite (load_at _ _ _ A). cbn [bind]. rewrite add_plus, (loadPtr_at _ _ _ W). reflexivity.
    - destruct (LikePtr_complete t D) as [L|J]; [|contradiction].
      rewrite (loadPtr_at _ _ _ A). cbn [bind]. rewrite L.
      unfold MemModel.LikePtr in L. destruct (kinds t); try discriminate; reflexivity.
    - assert (L : LikePtr t = false).
      { destruct (LikePtr t) eqn:L; auto. now apply LikePtr_sound in L. }
      rewrite L. unfold is_interface in NI. unfold MemModel.LikePtr in L.
      destruct (kinds t); try discriminate; try reflexivity; exfalso; apply NI; auto.
  Qed.

  (** ** The encoders of both models *)
  Definition same_build (f : nat) (t t' : nat) (wrapM : menc -> menc) (wrap : encoder -> encoder) (me : menc) (e : encoder) : Prop :=
    exists pr me' e', encoderOfM f pr t' = Some me' /\ encoderOf f pr t' = Some e' /\ me = wrapM me' /\ e = wrap e'.
  Lemma build_both : forall f prefix t me e, encoderOfM f prefix t = Some me -> encoderOf f prefix t = Some e ->
    exists f', f = S f' /\
    match shapeOf t with
    | SBytes => me = MBytes /\ e = EBytes
    | SErr => me = MErr t /\ e = EErr
    | SMarsh => me = MMarsh t /\ e = EMarsh
    | SBool => me = MBool /\ e = EBool
    | SInt k => me = MInt k /\ e = EInt k
    | SFloat64 => me = MFloat64 /\ e = EFloat64
    | SFloat32 => me = MFloat32 /\ e = EFloat32
    | SString => me = MStr /\ e = EStr
    | SPtr t' => same_build f' t t' MPtr EPtr me e
    | SSlice t' => same_build f' t t' (MSlice (size t')) ESlice me e
    | SArray n t' => same_build f' t t' (MArray n (size t')) (EArray n) me e
    | SStruct fs' => exists fs mfl fl, kinds t = GStruct fs /\ fs' = map toField fs /\ structFieldsM (encoderOfM f') true fs = Some mfl /\
        structFields (encoderOf f') 0 true fs' = Some fl /\ me = MStruct mfl /\ e = EStruct fl
    | SMap k t' => exists pr mek ek, encoderOfM f' pr k = Some mek /\ encoderOf f' pr k = Some ek /\
        same_build f' t t' (MMap (keyEncoderOfM k mek)) (EMap (keyEncoderOf shapeOf k ek)) me e
    | SIface | SMethods => me = MDynamic t /\ e = EDynamic
    | SFunc | SChan | SOther => exists msg, me = MUnsupported msg /\ e = EUnsupported msg
    end.
  Proof.
    intros [|f] prefix t me e HM H; [discriminate|]. exists f. split; [reflexivity|].
    cbn [MemModel.encoderOfM] in HM. cbn [JsonCompModel.encoderOf] in H. unfold MemModel.shapeOf at 1 in H. unfold MemModel.shapeOf at 1.
    destruct (Nat.eqb t bytesType); [split; congruence|].
    destruct (implErr t); [split; congruence|].
    destruct (implMarsh t); [split; congruence|].
    destruct (kinds t) as [|k| | | |t'|t'|n t'|fs|k t'| | | | | |] eqn:K;
      try (split; congruence); try (eexists; split; [injection HM as <-|injection H as <-]; reflexivity).
    - destruct (encoderOfM f _ t') as [me'|] eqn:EM; [|discriminate]. destruct (encoderOf f _ t') as [e'|] eqn:E; [|discriminate].
      injection HM as <-. injection H as <-. do 3 eexists. eauto.
    - destruct (encoderOfM f _ t') as [me'|] eqn:EM; [|discriminate]. destruct (encoderOf f _ t') as [e'|] eqn:E; [|discriminate].
      injection HM as <-. injection H as <-. do 3 eexists. eauto.
    - destruct (encoderOfM f _ t') as [me'|] eqn:EM; [|discriminate]. destruct (encoderOf f _ t') as [e'|] eqn:E; [|discriminate].
      injection HM as <-. injection H as <-. do 3 eexists. eauto.
    - destruct (structFieldsM _ _ _) as [mfl|] eqn:EM; [|discriminate]. destruct (structFields _ _ _ _) as [fl|] eqn:E; [|discriminate].
      injection HM as <-. injection H as <-. do 3 eexists. eauto 10.
    - destruct (encoderOfM f _ k) as [mek|] eqn:EMk; [|discriminate]. destruct (encoderOf f _ k) as [ek|] eqn:Ek; [|discriminate].
      cbn [obind] in HM, H.
      destruct (encoderOfM f _ t') as [me'|] eqn:EM; [|discriminate]. destruct (encoderOf f _ t') as [e'|] eqn:E; [|discriminate].
      injection HM as <-. injection H as <-. do 3 eexists. split; [eauto|]. split; [eauto|]. do 3 eexists. eauto.
  Qed.

  Lemma builds_m : forall f prefix t e, encoderOf f prefix t = Some e -> exists me, encoderOfM f prefix t = Some me.
  Proof.
    induction f as [|f IH]; intros prefix t e H; [discriminate|].
    cbn [MemModel.encoderOfM]. cbn [JsonCompModel.encoderOf] in H. unfold MemModel.shapeOf at 1 in H.
    destruct (Nat.eqb t bytesType); [eauto|]. destruct (implErr t); [eauto|]. destruct (implMarsh t); [eauto|].
    destruct (kinds t) as [|k| | | |t'|t'|n t'|fs|k t'| | | | | |] eqn:K; eauto.
    - destruct (encoderOf f _ t') as [e'|] eqn:E; [|discriminate]. destruct (IH _ _ _ E) as (me & ->). cbn. eauto.
    - destruct (encoderOf f _ t') as [e'|] eqn:E; [|discriminate]. destruct (IH _ _ _ E) as (me & ->). cbn. eauto.
    - destruct (encoderOf f _ t') as [e'|] eqn:E; [|discriminate]. destruct (IH _ _ _ E) as (me & ->). cbn. eauto.
    - destruct (structFields _ _ _ _) as [fl|] eqn:E; [|discriminate].
      assert (G : forall fs i first fl, structFields (encoderOf f) i first (map toField fs) = Some fl ->
        exists mfl, structFieldsM (encoderOfM f) first fs = Some mfl).
      { clear -IH. induction fs as [|fd fs IHfs]; intros i first fl E; cbn [map JsonCompModel.structFields MemModel.structFieldsM] in *; [eauto|].
        destruct (is_nil _); [eauto|]. change (f_type (toField fd)) with (m_type fd) in E.
        destruct (encoderOf f _ (m_type fd)) as [e|] eqn:Ee; [|discriminate]. cbn [obind] in E.
        destruct (structFields _ (S i) false _) as [fl'|] eqn:El; [|discriminate].
        destruct (IH _ _ _ Ee) as (me & ->). destruct (IHfs _ _ _ El) as (mfl & ->). cbn. eauto. }
      destruct (G _ _ _ _ E) as (mfl & ->). cbn. eauto.
    - destruct (encoderOf f _ k) as [ek|] eqn:Ek; [|discriminate]. cbn [obind] in H.
      destruct (encoderOf f _ t') as [e'|] eqn:E; [|discriminate].
      destruct (IH _ _ _ Ek) as (mek & ->). destruct (IH _ _ _ E) as (me & ->). cbn. eauto.
  Qed.

  (** ** Encoding *)
  Definition enc (B : nat) : val -> writer := encode ff64 ff32 shapeOf (EncoderOf shapeOf typeName B).
  Definition mapws (B : nat) (m : list (val * val)) :=
    map (fun p => match p with (k, x) =>
      (enc B k, match k with VIface (Some (t, y)) => Some (t, enc B y) | _ => None end, enc B x) end) m.

  Definition ends (r : nat -> outcome bytes) (out : bytes) : Prop := exists N, forall n, (N <= n)%nat -> r n = Done out.
  Lemma ends_now : forall r out, (forall n, r (S n) = Done out) -> ends r out.
  Proof. intros r out H. exists 1%nat. intros [|n] L; [lia|auto]. Qed.
  Lemma ends_next : forall r r' out, (forall n, r (S n) = r' n) -> ends r' out -> ends r out.
  Proof. intros r r' out H (N & E). exists (S N). intros [|n] L; [lia|]. rewrite H. apply E. lia. Qed.
  Lemma ends_bind : forall r (g : nat -> bytes -> outcome bytes) x out, ends r x -> ends (fun n => g n x) out -> ends (fun n => bind (r n) (g n)) out.
  Proof.
    intros r g x out (N & E) (N' & E'). exists (Nat.max N N'). intros n L. rewrite E by lia. cbn. apply E'. lia.
  Qed.

  Fixpoint addrs (d : option ptr) (sz : Z) (n : nat) : list (option ptr) :=
    match n with O => [] | S n => d :: addrs (add d sz) sz n end.
  Lemma addrs_map : forall n sz d, map (fun i => arrayAt d (Z.of_nat i) sz) (seq 0 n) = addrs d sz n.
  Proof.
    assert (G : forall n sz d k, map (fun i => arrayAt d (Z.of_nat i) sz) (seq k n) = addrs (add d (Z.of_nat k * sz)) sz n).
    { induction n as [|n IH]; intros sz d k; cbn [seq map addrs]; auto. f_equal. rewrite IH. f_equal.
      destruct d as [[b o]|]; cbn [add]; auto. do 2 f_equal. lia. }
    intros n sz d. rewrite G. f_equal. destruct d as [[b o]|]; cbn; auto. do 2 f_equal. lia.
  Qed.

  Definition Ph (m : mem) (t : nat) (p : ptr) (v : val) : Prop :=
    forall f prefix me e, encoderOfM f prefix t = Some me -> encoderOf f prefix t = Some e -> keys_plain kinds v ->
    forall B space out, enc B v e space = Some out -> ends (fun n => encodeAt B n m me (Some p) space) out.
  Definition Ph2 (m : mem) (t : nat) (p : ptr) (v : val) : Prop :=
    Ph m t p v /\
    forall t' y, v = VIface (Some (t', y)) -> exists w, in_interface m t p (Some (t', w)) /\ (~ direct t' -> exists q, w = Some q /\ Ph m t' q y).
  Definition all_plain (l : list val) : Prop := fold_right (fun x P => keys_plain kinds x /\ P) True l.
  Definition Phs (m : mem) (t : nat) (d : option ptr) (l : list val) : Prop :=
    forall f prefix me e, encoderOfM f prefix t = Some me -> encoderOf f prefix t = Some e -> all_plain l ->
    forall B first space out, seqLoop (map (enc B) l) e first space = Some out ->
    ends (fun n => seqLoopM (encodeAt B n m me) (addrs d (size t) (List.length l)) first space) out.
  Definition Phf (m : mem) (p : ptr) (fs : list mfield) (l : list val) : Prop :=
    forall f i first mfl fl, structFieldsM (encoderOfM f) first fs = Some mfl -> structFields (encoderOf f) i first (map toField fs) = Some fl ->
    all_plain l ->
    forall B pre space out, List.length pre = i -> structLoop (pre ++ map (enc B) l) fl space = Some out ->
    ends (fun n => structLoopM (encodeAt B n m) (Some p) mfl space) out.
  Definition Phm (m : mem) (k t : nat) (ps : list (ptr * ptr)) (l : list (val * val)) : Prop :=
    forall fk pk mek ek f prefix me e, encoderOfM fk pk k = Some mek -> encoderOf fk pk k = Some ek ->
    encoderOfM f prefix t = Some me -> encoderOf f prefix t = Some e -> keys_plain kinds (VMap (Some l)) ->
    forall B first space out, mapLoop shapeOf (EncoderOf shapeOf typeName B) (mapws B l) (keyEncoderOf shapeOf k ek) e first space = Some out ->
    ends (fun n => mapLoopM (writeKeyM (keyEncOf B) (encodeAt B n m) m (keyEncoderOfM k mek)) (encodeAt B n m me) ps first space) out.
  Definition Phd (m : mem) (t : nat) (w : option ptr) (x : val) : Prop :=
    (forall f me e, EncoderOfM f t = Some me -> encoderOf f [] t = Some e -> keys_plain kinds x ->
     forall B space out, enc B x e space = Some out -> ends (fun n => encodeAt B n m me w space) out) /\
    (~ direct t -> exists q, w = Some q /\ Ph m t q x).

  Lemma just_ok : forall t, just_unsafe t -> forall m' p' v, holds m' t p' v ->
    forall f prefix me e, encoderOfM f prefix t = Some me -> encoderOf f prefix t = Some e ->
    forall B space out, enc B v e space = Some out -> forall m q, ends (fun n => encodeAt B n m me q space) out.
  Proof.
    assert (SHP : forall t, just_unsafe t -> shapeOf t = match kinds t with GStruct fs => SStruct (map toField fs) | GArray n t' => SArray n t' | _ => SOther end).
    { intros t J. unfold MemModel.shapeOf. destruct (Nat.eqb t bytesType) eqn:NB.
      { apply Nat.eqb_eq in NB as ->. destruct TOK as (_ & _ & u & K). inversion J; congruence. }
      destruct (METH t J) as [-> ->]. destruct J as [t K|t fd K J|t t' K J]; now rewrite K. }
    intros t J. induction J as [t K|t fd K J IH|t t' K J IH]; intros m' p' v H f prefix me e EM E B space out W m q;
      destruct (build_both _ _ _ _ _ EM E) as (f' & -> & Sh); pose proof (SHP t ltac:(eauto using j_unsafe, j_struct, j_array)) as SH;
      rewrite K in SH; rewrite SH in Sh.
    - destruct Sh as (msg & -> & ->). unfold enc in W. destruct v as [| | | | | | | |[|]| | |[|]|[[? ?]|]|]; try discriminate.
      cbn [encode] in W. injection W as <-. apply ends_now. reflexivity.
    - destruct Sh as (fs & mfl & fl & K' & Ef & EMf & Efl & -> & ->). rewrite K in K'. injection K' as <-. clear Ef.
      unfold enc in W. destruct v as [| | | | | | | |[|]|l|l|[|]|[[? ?]|]|]; try discriminate.
      cbn [encode] in W. fold (enc B) in W.
      destruct (structLoop _ fl _) as [o|] eqn:SL; [|discriminate]. injection W as <-.
      apply (ends_next _ (fun n => bind (structLoopM (encodeAt B n m) q mfl (space ++ [123])) (fun s => Done (s ++ [125])))); [reflexivity|].
      apply (ends_bind _ (fun n s => Done (s ++ [125])) o); [|exists 0%nat; reflexivity].
      assert (HF : holds_fields m' p' [fd] l).
      { inversion H; subst; try congruence. }
      inversion HF as [|? ? ? ? x l' Hx Hl]; subst. inversion Hl; subst.
      cbn [map MemModel.structFieldsM JsonCompModel.structFields] in EMf, Efl.
      destruct (is_nil _).
      + injection EMf as <-. injection Efl as <-. cbn [structLoop] in SL. injection SL as <-. exists 0%nat. reflexivity.
      + change (f_type (toField fd)) with (m_type fd) in Efl.
        destruct (encoderOfM f' _ (m_type fd)) as [me1|] eqn:EM1; [|discriminate].
        destruct (encoderOf f' _ (m_type fd)) as [e1|] eqn:E1; [|discriminate].
        cbn [obind] in EMf, Efl. injection EMf as <-. injection Efl as <-.
        cbn [structLoop map nth_error obind] in SL. destruct (enc B x e1 _) as [o'|] eqn:W1; [|discriminate]. injection SL as <-.
        cbn [structLoopM]. apply (ends_bind _ (fun n => structLoopM (encodeAt B n m) q []) o'); [|exists 0%nat; reflexivity].
        eapply IH; eauto.
    - destruct Sh as (pr & me' & e' & EM' & E' & -> & ->).
      unfold enc in W. destruct v as [| | | | | | | |[|]|l|l|[|]|[[? ?]|]|]; try discriminate.
      cbn [encode] in W. fold (enc B) in W.
      assert (HS : exists x, l = [x] /\ holds m' t' p' x).
      { inversion H as [| | | | | | | | | | | | ? ? ? ? ? ? SH' Ln HL| | | | |]; subst; try congruence.
        rewrite SH in SH'. injection SH' as Ln' <-. inversion HL as [|? ? ? x ? Hx _]; subst; [discriminate|]. destruct l0; [|discriminate]. eauto. }
      destruct HS as (x & -> & Hx). cbn [firstn map seqLoop] in W.
      destruct (enc B x e' _) as [o|] eqn:W1; [|discriminate]. cbn [obind] in W. injection W as <-.
      apply (ends_next _ (fun n => bind (bind (encodeAt B n m me' (arrayAt q 0 (size t')) (space ++ [91])) (fun s => Done s)) (fun s => Done (s ++ [93])))); [reflexivity|].
      apply (ends_bind _ (fun n s => Done (s ++ [93])) o); [|exists 0%nat; reflexivity].
      apply (ends_bind _ (fun n s => Done s) o); [|exists 0%nat; reflexivity].
      eapply IH; eauto.
  Qed.

  Lemma quote_ok : forall m k a x, Ph m k a x -> match x with VErr _ | VMarsh _ => False | _ => True end -> keys_plain kinds x ->
    forall fk pk mek ek, encoderOfM fk pk k = Some mek -> encoderOf fk pk k = Some ek ->
    forall B sp out,
    match keyEncoderOf shapeOf k ek with
    | KString e => let? s := enc B x e sp in Some (s ++ [58])
    | KNumber e => let? s := enc B x e (sp ++ [34]) in Some (s ++ [34; 58])
    | KInterface | KMethods => None end = Some out ->
    ends (fun n => quoteKey (encodeAt B n m) (keyEncoderOfM k mek) (Some a) sp) out /\ keyEncoderOfM k mek <> MKInterface.
  Proof.
    intros m k a x H NE PL fk pk mek ek EM E B sp out W.
    destruct (build_both _ _ _ _ _ EM E) as (f' & -> & Sh).
    assert (G : (keyEncoderOf shapeOf k ek = KString ek /\ keyEncoderOfM k mek = MKString mek) \/
      (keyEncoderOf shapeOf k ek = KNumber ek /\ keyEncoderOfM k mek = MKNumber mek)).
    { destruct (shapeOf k) eqn:SH; unfold keyEncoderOf in *; rewrite SH in *; try discriminate;
        try (exfalso; destruct Sh as [_ ->]; unfold enc in W; destruct x as [| | | | | | | |[|]| | |[|]|[[? ?]|]|]; (discriminate || contradiction));
        unfold MemModel.keyEncoderOfM; unfold MemModel.shapeOf in SH; destruct (Nat.eqb k bytesType);
        destruct (implErr k); destruct (implMarsh k); destruct (kinds k); try discriminate; auto. }
    destruct G as [[G1 G2]|[G1 G2]]; rewrite G1 in W; rewrite G2; (split; [|discriminate]); cbn [quoteKey].
    - destruct (enc B x ek sp) as [o|] eqn:W1; [|discriminate]. injection W as <-.
      apply (ends_bind _ (fun n s => Done (s ++ [58])) o); [|exists 0%nat; reflexivity]. eapply H; eauto.
    - destruct (enc B x ek _) as [o|] eqn:W1; [|discriminate]. injection W as <-.
      apply (ends_bind _ (fun n s => Done (s ++ [34; 58])) o); [|exists 0%nat; reflexivity]. eapply H; eauto.
  Qed.

  Lemma key_ok : forall m k a x, Ph2 m k a x -> plain_key kinds x -> keys_plain kinds x ->
    forall fk pk mek ek, encoderOfM fk pk k = Some mek -> encoderOf fk pk k = Some ek ->
    forall B sp out,
    writeKey shapeOf (EncoderOf shapeOf typeName B) (keyEncoderOf shapeOf k ek) (enc B x)
      (match x with VIface (Some (t, y)) => Some (t, enc B y) | _ => None end) sp = Some out ->
    ends (fun n => writeKeyM (keyEncOf B) (encodeAt B n m) m (keyEncoderOfM k mek) (Some a) sp) out.
  Proof.
    intros m k a x [H H2] PK PL fk pk mek ek EM E B sp out W.
    destruct (keyEncoderOf shapeOf k ek) as [e0|e0| |] eqn:KE; [| | |discriminate].
    - destruct (quote_ok m k a x H) with (fk := fk) (pk := pk) (mek := mek) (ek := ek) (B := B) (sp := sp) (out := out) as [Q NI]; auto.
      + destruct x as [| | | | | | | |[|]| | |[|]|[[? ?]|]|]; auto.
      + rewrite KE. exact W.
      + destruct Q as (N & Q). exists N. intros n L. specialize (Q n L). unfold writeKeyM.
        destruct (keyEncoderOfM k mek); auto; contradiction.
    - destruct (quote_ok m k a x H) with (fk := fk) (pk := pk) (mek := mek) (ek := ek) (B := B) (sp := sp) (out := out) as [Q NI]; auto.
      + destruct x as [| | | | | | | |[|]| | |[|]|[[? ?]|]|]; auto.
      + rewrite KE. exact W.
      + destruct Q as (N & Q). exists N. intros n L. specialize (Q n L). unfold writeKeyM.
        destruct (keyEncoderOfM k mek); auto; contradiction.
    - assert (K : kinds k = GEFace /\ Nat.eqb k bytesType = false).
      { unfold keyEncoderOf in KE. unfold MemModel.shapeOf in KE.
        destruct (Nat.eqb k bytesType); [discriminate|]. destruct (implErr k); [discriminate|]. destruct (implMarsh k); [discriminate|].
        destruct (kinds k); try discriminate; auto. }
      destruct K as [K NB].
      assert (MK : keyEncoderOfM k mek = MKInterface) by (unfold MemModel.keyEncoderOfM; now rewrite K, NB).
      rewrite MK. cbn [writeKey] in W.
      destruct x as [| | | | | | | |[|]| | |[|]|[[t' y]|]|]; try discriminate.
      destruct (H2 t' y eq_refl) as (w & II & Hq). destruct PK as [ND NE]. destruct (Hq ND) as (q & -> & Hy).
      cbn [keys_plain] in PL.
      assert (LE : loadEFace m (Some a) = Done (Some (t', Some q))).
      { inversion II as [| ? ? ? ? _ A W'| |? ? ? ? K' |? ? ? D' |? ? ? NI]; subst.
        - unfold loadEFace. rewrite (load_at _ _ _ A). cbn [bind]. rewrite add_plus, (loadPtr_at _ _ _ W'). reflexivity.
        - congruence.
        - inversion D'; congruence.
        - exfalso. apply NI. now left. }
      cbn [writeKeyM]. rewrite LE. cbn [bind]. 
      assert (W' : (let? e := EncoderOf shapeOf typeName B t' in
             match keyEncoderOf shapeOf t' e with
             | KString e1 => let? s := enc B y e1 sp in Some (s ++ [58])
             | KNumber e1 => let? s := enc B y e1 (sp ++ [34]) in Some (s ++ [34; 58])
             | KInterface | KMethods => None end) = Some out).
      { destruct (shapeOf t'); try discriminate; exact W. }
      clear W. destruct (EncoderOf shapeOf typeName B t') as [e'|] eqn:E'; [|discriminate]. cbn [obind] in W'.
      unfold EncoderOf in E'. destruct (builds_m _ _ _ _ E') as (me' & EM').
      destruct (quote_ok m t' q y Hy NE PL _ _ _ _ EM' E' B sp out W') as [Q NI].
      unfold MemModel.keyEncOf. rewrite EM'. cbn [obind]. exact Q.
  Qed.

  Scheme holds_mut := Induction for MemSpec.holds Sort Prop
    with holds_seq_mut := Induction for MemSpec.holds_seq Sort Prop
    with holds_fields_mut := Induction for MemSpec.holds_fields Sort Prop
    with holds_map_mut := Induction for MemSpec.holds_map Sort Prop
    with held_mut := Induction for MemSpec.held Sort Prop.

  Lemma wraps : forall m t p t' wm w v B space out me e f,
    same_build f t t' wm w me e -> (forall me' e' pr, encoderOfM f pr t' = Some me' -> encoderOf f pr t' = Some e' -> enc B v (w e') space = Some out ->
      ends (fun n => encodeAt B n m (wm me') (Some p) space) out) ->
    enc B v e space = Some out -> ends (fun n => encodeAt B n m me (Some p) space) out.
  Proof. intros m t p t' wm w v B space out me e f (pr & me' & e' & EM & E & -> & ->) H W. eapply H; eauto. Qed.

  Lemma held_ok : forall m t w x, (direct t -> Ph (alloc m (CPtr w)) t (slot m) x /\ holds (alloc m (CPtr w)) t (slot m) x) ->
    (~ direct t -> exists q, w = Some q /\ Ph m t q x) -> direct t \/ ~ direct t -> Phd m t w x.
  Proof.
    intros m t w x HD HN DEC. split; [|exact HN]. intros f me e EM E PL B space out W.
    unfold MemModel.EncoderOfM in EM. destruct (encoderOfM f [] t) as [me'|] eqn:EM'; [|discriminate]. cbn [obind] in EM. injection EM as <-.
    destruct DEC as [D|D].
    - destruct (HD D) as [P H]. destruct (LikePtr t) eqn:L.
      + apply (ends_next _ (fun n => encodeAt B n (alloc m (CPtr w)) me' (Some (slot m)) space)); [reflexivity|]. eapply P; eauto.
      + destruct (LikePtr_complete t D) as [C|J]; [congruence|]. eapply just_ok; eauto.
    - destruct (LikePtr t) eqn:L; [now apply LikePtr_sound in L|]. destruct (HN D) as (q & -> & P). eapply P; eauto.
  Qed.

  Lemma methods_not_just : forall t, shapeOf t = SErr \/ shapeOf t = SMarsh -> ~ just_unsafe t.
  Proof.
    intros t SH J. destruct (METH t J) as [M1 M2]. unfold MemModel.shapeOf in SH. rewrite M1, M2 in SH.
    destruct (Nat.eqb t bytesType); [destruct SH; discriminate|]. destruct (kinds t); destruct SH; discriminate.
  Qed.
  Lemma iface_not_just : forall t, is_interface kinds t -> ~ just_unsafe t.
  Proof. intros t [K|K] J; inversion J; congruence. Qed.

  Lemma dynamic_m : forall f prefix t me, encoderOfM f prefix t = Some me -> encoderOf f prefix t = Some EDynamic -> me = MDynamic t.
  Proof.
    intros [|f] prefix t me EM E; [discriminate|]. cbn [MemModel.encoderOfM] in EM. cbn [JsonCompModel.encoderOf] in E.
    unfold MemModel.shapeOf at 1 in E. unfold obind in E.
    destruct (Nat.eqb t bytesType); [discriminate|]. destruct (implErr t); [discriminate|]. destruct (implMarsh t); [discriminate|].
    destruct (kinds t) as [|k| | | |t'|t'|n t'|fs|k t'| | | | | |]; try discriminate; try congruence.
    all: try (destruct (encoderOf _ _ t'); discriminate).
    - destruct (structFields _ _ _ _); discriminate.
    - destruct (encoderOf _ _ k); [|discriminate]. destruct (encoderOf _ _ t'); discriminate.
  Qed.

  Ltac begin := (split; [|let Q := fresh in intros ? ? Q; discriminate Q]); intros f prefix me e EM E PL B space out W;
              destruct (build_both _ _ _ _ _ EM E) as (f' & -> & Sh).

  Lemma encode_ok : forall m t p v, holds m t p v -> Ph2 m t p v.
  Proof.
    apply (holds_mut kinds size bytesType implErr implMarsh errorText marshalText
      (fun m t p v _ => Ph2 m t p v) (fun m t d l _ => Phs m t d l) (fun m p fs l _ => Phf m p fs l)
      (fun m k t ps l _ => Phm m k t ps l) (fun m t w x _ => Phd m t w x)).
    - (* any *) intros m t p. begin. unfold enc in W. destruct e; try discriminate. cbn [encode] in W. injection W as <-.
      destruct (shapeOf t); try (destruct Sh; discriminate);
        try (destruct Sh as (? & ? & ? & ? & ? & ? & ?); discriminate);
        try (destruct Sh as (? & ? & ? & ? & ? & (? & ? & ? & ? & ? & ? & ?)); discriminate);
        try (destruct Sh as (? & ? & ? & ? & ? & ? & ? & ? & ?); discriminate);
        destruct Sh as (? & -> & Q); injection Q as <-; apply ends_now; reflexivity.
    - (* bool *) intros m t p. intros b SH A. begin. rewrite SH in Sh. destruct Sh as [-> ->]. unfold enc in W. cbn [encode] in W. injection W as <-.
      apply ends_now. intros n. cbn [MemModel.encodeAt]. unfold loadBool. now rewrite (load_at _ _ _ A).
    - (* int *) intros m t p. intros k z SH A. begin. rewrite SH in Sh. destruct Sh as [-> ->]. unfold enc in W. cbn [encode] in W.
      apply ends_now. intros n. cbn [MemModel.encodeAt]. rewrite (loadInt_at _ _ _ _ A). cbn [bind]. now rewrite W.
    - (* float64 *) intros m t p. intros x SH A. begin. rewrite SH in Sh. destruct Sh as [-> ->]. unfold enc in W. cbn [encode] in W.
      apply ends_now. intros n. cbn [MemModel.encodeAt]. unfold loadF64. rewrite (load_at _ _ _ A). cbn [bind]. now rewrite W.
    - (* float32 *) intros m t p. intros x SH A. begin. rewrite SH in Sh. destruct Sh as [-> ->]. unfold enc in W. cbn [encode] in W.
      apply ends_now. intros n. cbn [MemModel.encodeAt]. unfold loadF32. rewrite (load_at _ _ _ A). cbn [bind]. now rewrite W.
    - (* string *) intros m t p. intros d s SH A A2 A3. begin. rewrite SH in Sh. destruct Sh as [-> ->]. unfold enc in W. cbn [encode] in W. injection W as <-.
      apply ends_now. intros n. cbn [MemModel.encodeAt]. now rewrite (loadString_at _ _ _ _ A A2 A3).
    - (* bytes *) intros m t p. intros d s SH A A2 A3. begin. rewrite SH in Sh. destruct Sh as [-> ->]. unfold enc in W. cbn [encode] in W. injection W as <-.
      apply ends_now. intros n. cbn [MemModel.encodeAt]. now rewrite (loadString_at _ _ _ _ A A2 A3).
    - (* error *) intros m t p. intros t' w msg SH II ET. begin. rewrite SH in Sh. destruct Sh as [-> ->]. unfold enc in W. cbn [encode] in W. injection W as <-.
      apply ends_now. intros n. cbn [MemModel.encodeAt]. rewrite (indirect_ok m t p _ (methods_not_just t (or_introl SH)) II). cbn [bind]. now rewrite ET.
    - (* marshaler *) intros m t p. intros t' w r SH II ET. begin. rewrite SH in Sh. destruct Sh as [-> ->]. unfold enc in W. cbn [encode] in W.
      apply ends_now. intros n. cbn [MemModel.encodeAt]. rewrite (indirect_ok m t p _ (methods_not_just t (or_intror SH)) II). cbn [bind]. rewrite ET.
      cbn [bind]. destruct r; injection W as <-; reflexivity.
    - (* nil pointer *) intros m t p. intros t' SH A. begin. rewrite SH in Sh. destruct Sh as (pr & me' & e' & EM' & E' & -> & ->). unfold enc in W. cbn [encode] in W.
      injection W as <-. apply ends_now. intros n. cbn [MemModel.encodeAt]. now rewrite (loadPtr_at _ _ _ A).
    - (* pointer *) intros m t p. intros t' q x SH A _ [P _]. begin. rewrite SH in Sh. destruct Sh as (pr & me' & e' & EM' & E' & -> & ->). unfold enc in W. cbn [encode] in W.
      apply (ends_next _ (fun n => encodeAt B n m me' (Some q) space)).
      + intros n. cbn [MemModel.encodeAt]. now rewrite (loadPtr_at _ _ _ A).
      + eapply P; eauto.
    - (* slice *) intros m t p. intros t' d l SH A A2 _ P. begin. rewrite SH in Sh. destruct Sh as (pr & me' & e' & EM' & E' & -> & ->). unfold enc in W. cbn [encode] in W.
      fold (enc B) in W. destruct (seqLoop _ _ _ _) as [o|] eqn:SL; [|discriminate]. injection W as <-.
      apply (ends_next _ (fun n => bind (seqLoopM (encodeAt B n m me') (addrs d (size t') (List.length l)) true (space ++ [91])) (fun s => Done (s ++ [93])))).
      + intros n. cbn [MemModel.encodeAt]. rewrite (loadPtr_at _ _ _ A). cbn [bind]. rewrite add_plus, (loadInt_at _ _ _ _ A2). cbn [bind].
        unfold lenZ. rewrite Nat2Z.id, addrs_map. reflexivity.
      + apply (ends_bind _ (fun n s => Done (s ++ [93])) o); [|exists 0%nat; reflexivity]. eapply P; eauto.
    - (* array *) intros m t p. intros k t' l SH L _ P. begin. rewrite SH in Sh. destruct Sh as (pr & me' & e' & EM' & E' & -> & ->). unfold enc in W. cbn [encode] in W.
      fold (enc B) in W. rewrite firstn_all2 in W by (rewrite map_length; lia).
      destruct (seqLoop _ _ _ _) as [o|] eqn:SL; [|discriminate]. injection W as <-.
      apply (ends_next _ (fun n => bind (seqLoopM (encodeAt B n m me') (addrs (Some p) (size t') (List.length l)) true (space ++ [91])) (fun s => Done (s ++ [93])))).
      + intros n. cbn [MemModel.encodeAt]. rewrite <- L, addrs_map. reflexivity.
      + apply (ends_bind _ (fun n s => Done (s ++ [93])) o); [|exists 0%nat; reflexivity]. eapply P; eauto.
    - (* struct *) intros m t p. intros fs l K SH _ P. begin. rewrite SH in Sh. destruct Sh as (fs' & mfl & fl & K' & Ef & EMf & Efl & -> & ->).
      rewrite K in K'. injection K' as <-. unfold enc in W. cbn [encode] in W. fold (enc B) in W.
      destruct (structLoop _ fl _) as [o|] eqn:SL; [|discriminate]. injection W as <-.
      apply (ends_next _ (fun n => bind (structLoopM (encodeAt B n m) (Some p) mfl (space ++ [123])) (fun s => Done (s ++ [125])))); [reflexivity|].
      apply (ends_bind _ (fun n s => Done (s ++ [125])) o); [|exists 0%nat; reflexivity].
      eapply P with (pre := []); eauto.
    - (* nil map *) intros m t p. intros k t' SH A. begin. rewrite SH in Sh. destruct Sh as (pk & mek & ek & EMk & Ek & pr & me' & e' & EM' & E' & -> & ->).
      unfold enc in W. cbn [encode] in W. injection W as <-. apply ends_now. intros n. cbn [MemModel.encodeAt]. now rewrite (loadPtr_at _ _ _ A).
    - (* map *) intros m t p. intros k t' b ps l SH A MB _ P. begin. rewrite SH in Sh.
      destruct Sh as (pk & mek & ek & EMk & Ek & pr & me' & e' & EM' & E' & -> & ->).
      unfold enc in W. cbn [encode] in W. fold (enc B) in W. fold (mapws B l) in W.
      destruct (mapLoop _ _ _ _ _ _ _) as [o|] eqn:ML; [|discriminate]. injection W as <-.
      apply (ends_next _ (fun n => bind (mapLoopM (writeKeyM (keyEncOf B) (encodeAt B n m) m (keyEncoderOfM k mek)) (encodeAt B n m me') ps true (space ++ [123]))
        (fun s => Done (s ++ [125])))).
      + intros n. cbn [MemModel.encodeAt]. rewrite (loadPtr_at _ _ _ A). cbn [bind]. rewrite MB. reflexivity.
      + apply (ends_bind _ (fun n s => Done (s ++ [125])) o); [|exists 0%nat; reflexivity].
        eapply (P _ _ mek ek _ _ me' e'); eauto.
    - (* nil interface *) intros m t p. intros IS II. begin. unfold enc in W. destruct e; try discriminate. cbn [encode] in W. injection W as <-.
      rewrite (dynamic_m _ _ _ _ EM E) in *. clear Sh. apply ends_now. intros n. cbn [MemModel.encodeAt]. rewrite (indirect_ok m t p _ (iface_not_just t IS) II). reflexivity.
    - (* interface *) intros m t p. intros t' w x IS II _ [P1 P2].
      split; [|intros t'' y Q; injection Q as <- <-; eauto].
      intros f prefix me e EM E PL B space out W. destruct (build_both _ _ _ _ _ EM E) as (f' & -> & Sh).
      unfold enc in W. destruct e; try discriminate. cbn [encode] in W. fold (enc B) in W.
      rewrite (dynamic_m _ _ _ _ EM E) in *. clear Sh. destruct (EncoderOf shapeOf typeName B t') as [e'|] eqn:E'; [|discriminate]. cbn [obind] in W.
      unfold EncoderOf in E'. destruct (builds_m _ _ _ _ E') as (me' & EM').
      assert (EO : EncoderOfM B t' = Some (if LikePtr t' then MOnePtr me' else me')) by (unfold MemModel.EncoderOfM; now rewrite EM').
      apply (ends_next _ (fun n => encodeAt B n m (if LikePtr t' then MOnePtr me' else me') w space)).
      + intros n. cbn [MemModel.encodeAt]. rewrite (indirect_ok m t p _ (iface_not_just t IS) II). cbn [bind]. now rewrite EO.
      + eapply P1; eauto.
    - intros m t d f prefix me e EM E PL B first space out W. cbn in W. injection W as <-. exists 0%nat. reflexivity.
    - intros m t p x l _ [P _] _ Ps f prefix me e EM E [PL1 PL2] B first space out W.
      cbn [map seqLoop] in W. destruct (enc B x e _) as [o|] eqn:W1; [|discriminate]. cbn [obind] in W.
      cbn [List.length addrs seqLoopM].
      apply (ends_bind _ (fun n => seqLoopM (encodeAt B n m me) (addrs (add (Some p) (size t)) (size t) (List.length l)) false) o).
      + eapply P; eauto.
      + rewrite add_plus. eapply Ps; eauto.
    - intros m p f i first mfl fl EM E PL B pre space out L W. cbn in EM, E. injection EM as <-. injection E as <-.
      cbn in W. injection W as <-. exists 0%nat. reflexivity.
    - intros m p fd fs x l _ [P _] _ Pf f i first mfl fl EM E [PL1 PL2] B pre space out L W.
      cbn [map MemModel.structFieldsM JsonCompModel.structFields] in EM, E.
      assert (SP : pre ++ map (enc B) (x :: l) = (pre ++ [enc B x]) ++ map (enc B) l) by (cbn [map]; now rewrite <- app_assoc).
      assert (SL : List.length (pre ++ [enc B x]) = S i) by (rewrite app_length; cbn; lia).
      destruct (is_nil _).
      + rewrite SP in W. eapply Pf; eauto.
      + change (f_type (toField fd)) with (m_type fd) in E.
        destruct (encoderOfM f _ (m_type fd)) as [me1|] eqn:EM1; [|discriminate].
        destruct (encoderOf f _ (m_type fd)) as [e1|] eqn:E1; [|discriminate]. cbn [obind] in EM, E.
        destruct (structFieldsM _ _ _) as [mfl'|] eqn:EM2; [|discriminate].
        destruct (structFields _ _ _ _) as [fl'|] eqn:E2; [|discriminate].
        injection EM as <-. injection E as <-.
        cbn [structLoop] in W.
        rewrite nth_error_app2 in W by lia. rewrite L, Nat.sub_diag in W. cbn [map nth_error obind] in W.
        destruct (enc B x e1 _) as [o|] eqn:W1; [|discriminate]. cbn [obind] in W.
        cbn [structLoopM]. rewrite add_plus.
        apply (ends_bind _ (fun n => structLoopM (encodeAt B n m) (Some p) mfl') o).
        * eapply P; eauto.
        * change (enc B x :: map (enc B) l) with (map (enc B) (x :: l)) in W. rewrite SP in W. eapply Pf; eauto.
    - intros m k t fk pk mek ek f prefix me e EMk Ek EM E PL B first space out W. cbn in W. injection W as <-. exists 0%nat. reflexivity.
    - intros m k t a b ps x y l _ Pk _ [Pv _] _ Pm fk pk mek ek f prefix me e EMk Ek EM E PL B first space out W.
      cbn [keys_plain fold_right] in PL. destruct PL as (PK & PLk & PLv & PL).
      cbn [mapws map mapLoop] in W.
      destruct (writeKey _ _ _ _ _ _) as [o1|] eqn:W1; [|discriminate]. cbn [obind] in W.
      destruct (enc B y e o1) as [o2|] eqn:W2; [|discriminate]. cbn [obind] in W.
      cbn [mapLoopM].
      apply (ends_bind _ (fun n space => bind (encodeAt B n m me (Some b) space)
        (mapLoopM (writeKeyM (keyEncOf B) (encodeAt B n m) m (keyEncoderOfM k mek)) (encodeAt B n m me) ps false)) o1).
      + eapply key_ok; eauto.
      + apply (ends_bind _ (fun n => mapLoopM (writeKeyM (keyEncOf B) (encodeAt B n m) m (keyEncoderOfM k mek)) (encodeAt B n m me) ps false) o2).
        * eapply Pv; eauto.
        * eapply Pm; eauto.
    - intros m t w x D H [P _]. apply held_ok; auto. intros N. contradiction.
    - intros m t q x D H [P _]. apply held_ok; auto; [contradiction|eauto].
  Qed.

  Lemma held_encode : forall m t w x, held m t w x -> Phd m t w x.
  Proof.
    intros m t w x H. destruct H as [m t w x D H|m t q x D H].
    - apply held_ok; auto; [|contradiction]. intros _. split; auto. now apply encode_ok.
    - apply held_ok; auto; [contradiction|]. intros _. exists q. split; auto. now apply encode_ok.
  Qed.

  Lemma marshal_ok : forall m t w v B text, held m t w v -> keys_plain kinds v ->
    MarshalToString ff64 ff32 shapeOf typeName B t v = Some text ->
    ends (fun n => MemModel.MarshalToStringM kinds typeName size depth bytesType implErr implMarsh errorText marshalText ff64 ff32 B n m (Some (t, w))) text.
  Proof.
    intros m t w v B text H PL M. unfold MarshalToString in M.
    destruct (EncoderOf shapeOf typeName B t) as [e|] eqn:E; [|discriminate]. cbn [obind] in M. unfold EncoderOf in E.
    destruct (builds_m _ _ _ _ E) as (me & EM).
    assert (EO : EncoderOfM B t = Some (if LikePtr t then MOnePtr me else me)) by (unfold MemModel.EncoderOfM; now rewrite EM).
    unfold MemModel.MarshalToStringM. rewrite EO. eapply (proj1 (held_encode _ _ _ _ H)); eauto.
  Qed.
End Proofs.
