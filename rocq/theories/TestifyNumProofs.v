From Verif Require Import Base JsonFloatModel JsonFloatProofs TestifyModel TestifySpec TestifyProofs.
From Coq Require Import Reals Lra Lia.
From Flocq Require Import Core IEEE754.Binary IEEE754.Bits.
Open Scope Z_scope.
Open Scope list_scope.

(** * Numbers *)
Lemma toFloat_spec : forall x f, toFloat x = Some f <-> number x f.
Proof.
  intros x f. split.
  - destruct x as [v|]; [|discriminate]. destruct v; cbn [toFloat]; try discriminate.
    + destruct (existsb _ _) eqn:E; [|discriminate]. intros H. injection H as <-.
      apply existsb_exists in E. destruct E as (t & I & E). apply Z.eqb_eq in E. subst t. constructor. unfold intTypes. cbn in I |- *. unfold durationType in I. tauto.
    + destruct (existsb _ _) eqn:E; [|discriminate]. intros H. injection H as <-.
      apply existsb_exists in E. destruct E as (t & I & E). apply Z.eqb_eq in E. subst t. now constructor.
  - destruct 1; cbn [toFloat].
    + replace (existsb _ _) with true; auto. symmetry. apply existsb_exists. exists ty. split; [|apply Z.eqb_refl].
      unfold intTypes in H. cbn in H |- *. unfold durationType. tauto.
    + replace (existsb _ _) with true; auto. symmetry. apply existsb_exists. exists ty. split; [auto|apply Z.eqb_refl].
Qed.
Lemma toFloat_none : forall x, toFloat x = None <-> ~ exists f, number x f.
Proof.
  intros x. split.
  - intros E [f H]. apply toFloat_spec in H. congruence.
  - intros N. destruct (toFloat x) eqn:E; auto. exfalso. apply N. exists b. now apply toFloat_spec.
Qed.
Lemma number_fun : forall x f g, number x f -> number x g -> f = g.
Proof. intros x f g F G. apply toFloat_spec in F, G. congruence. Qed.

Local Open Scope R_scope.
(** The nearest float64, had it no largest one *)
Definition nearest (x : R) : R := round radix2 (FLT_exp (-1074) 53) ZnearestE x.
Notation real := (B2R 53 1024).
Notation finite := (is_finite 53 1024).
Notation fmt := (generic_format radix2 (FLT_exp (-1074) 53)).

Lemma lt64_finite : forall a b, finite a = true -> finite b = true -> lt64 a b = true <-> real a < real b.
Proof.
  intros a b Fa Fb. rewrite lt64_R by auto. split; [|apply Rlt_bool_true].
  intros H. destruct (Rlt_bool_spec (real a) (real b)); auto; discriminate.
Qed.
Lemma real_bound : forall d, finite d = true -> Rabs (real d) < bpow radix2 1024.
Proof. intros d _. apply abs_B2R_lt_emax. Qed.
Lemma real_fmt : forall d, fmt (real d).
Proof. intros d. apply (generic_format_B2R 53 1024). Qed.
Lemma nearest_fmt : forall x, fmt x -> nearest x = x.
Proof. intros x F. apply round_generic; auto with typeclass_instances. Qed.
Lemma nearest_le : forall x y, x <= y -> nearest x <= nearest y.
Proof. intros x y H. apply round_le; auto with typeclass_instances. apply FLT_exp_valid. reflexivity. Qed.
Lemma nearest_opp : forall x, nearest (- x) = - nearest x.
Proof. intros x. apply round_NE_opp. Qed.
Lemma nearest_abs : forall x, Rabs (nearest x) = nearest (Rabs x).
Proof. intros x. symmetry. apply round_NE_abs. apply FLT_exp_valid. reflexivity. Qed.

Definition infinite (s : bool) (f : binary64) : Prop := f = B754_infinity 53 1024 s.
Lemma minus_cases : forall x y, finite x = true -> finite y = true ->
  (Rabs (nearest (real x - real y)) < bpow radix2 1024 /\ real (b64_minus mode_NE x y) = nearest (real x - real y) /\ finite (b64_minus mode_NE x y) = true) \/
  (bpow radix2 1024 <= Rabs (nearest (real x - real y)) /\ exists s, infinite s (b64_minus mode_NE x y)).
Proof.
  intros x y Fx Fy. unfold b64_minus.
  pose proof (Bminus_correct 53 1024 eq_refl eq_refl binop_nan_pl64 mode_NE x y Fx Fy) as H.
  repeat match type of H with context [round radix2 ?f ?m (real x - real y)] => change (round radix2 f m (real x - real y)) with (nearest (real x - real y)) in H end.
  destruct (Rlt_bool_spec (Rabs (nearest (real x - real y))) (bpow radix2 1024)).
  - left. destruct H as (H1 & H2 & _). auto.
  - right. split; auto. destruct H as (H1 & _). exists (Bsign 53 1024 x).
    unfold infinite. destruct (Bminus _ _ _ _ _ _ _ _); try discriminate.
    + cbn in H1. congruence.
Qed.
Lemma lt64_inf : forall d s, finite d = true -> lt64 d (B754_infinity 53 1024 s) = negb s /\ lt64 (B754_infinity 53 1024 s) d = s.
Proof. intros d s F. destruct d as [sd|sd|sd pl|sd m e]; try discriminate; destruct s; unfold lt64; cbn; auto. Qed.
Lemma opp_real : forall d, real (b64_opp d) = - real d.
Proof. intros d. unfold b64_opp. apply B2R_Bopp. Qed.
Lemma opp_finite : forall d, finite (b64_opp d) = finite d.
Proof. intros d. unfold b64_opp. apply is_finite_Bopp. Qed.

Lemma finite_notNaN : forall f, finite f = true -> isNaN f = false.
Proof. intros [] H; try discriminate; auto. Qed.
Section Num.
  Variable sprintf : bytes -> list iface -> bytes.
  Lemma InDelta_finite : forall e a x y d msgs, goodMessages msgs -> number e x -> number a y ->
    finite x = true -> finite y = true -> finite d = true ->
    decides (InDelta sprintf e a d msgs) (Rabs (nearest (real x - real y)) <= real d).
  Proof.
    intros e a x y d msgs G Nx Ny Fx Fy Fd. apply toFloat_spec in Nx, Ny. unfold InDelta. rewrite Nx, Ny, !finite_notNaN by auto.
    rewrite Fail_good by auto.
    destruct (minus_cases x y Fx Fy) as [(B & R & F)|(B & s & E)].
    - destruct (lt64 (b64_minus mode_NE x y) (b64_opp d)) eqn:L1.
      + right. split; [|reflexivity]. apply lt64_finite in L1; [|auto|rewrite opp_finite; auto]. rewrite R, opp_real in L1.
        intros H. apply Rabs_le_inv in H. lra.
      + destruct (lt64 d (b64_minus mode_NE x y)) eqn:L2.
        * right. split; [|reflexivity]. apply lt64_finite in L2; auto. rewrite R in L2. intros H. apply Rabs_le_inv in H. lra.
        * left. split; [|reflexivity]. apply Rabs_le. rewrite <- R, <- opp_real. split; apply Rnot_lt_le; intros H.
          -- apply (lt64_finite _ _ F) in H; [congruence|]. now rewrite opp_finite.
          -- apply (lt64_finite _ _ Fd F) in H. congruence.
    - right. split. { pose proof (real_bound d Fd). intros H1. pose proof (Rle_abs (real d)). lra. }
      unfold infinite in E. rewrite E. assert (Fo : finite (b64_opp d) = true) by now rewrite opp_finite.
      destruct s.
      + now rewrite (proj2 (lt64_inf _ true Fo)).
      + now rewrite (proj2 (lt64_inf _ false Fo)), (proj1 (lt64_inf _ false Fd)).
  Qed.
  Lemma nearest_within : forall v d, fmt d -> Rabs v <= d -> Rabs (nearest v) <= d.
  Proof. intros v d F H. rewrite nearest_abs. rewrite <- (nearest_fmt d F). now apply nearest_le. Qed.
  Lemma within_nearest : forall v d, fmt d -> Rabs (nearest v) <= d -> Rabs v <= (d + succ radix2 (FLT_exp (-1074) 53) d) / 2.
  Proof.
    intros v d F H. apply Rnot_lt_le. intros L. rewrite nearest_abs in H. set (w := Rabs v) in *.
    assert (Valid_exp (FLT_exp (-1074) 53)) by (apply FLT_exp_valid; reflexivity).
    assert (W : 0 <= w) by apply Rabs_pos.
    assert (Z : 0 <= d). { eapply Rle_trans; [|exact H]. rewrite <- (nearest_fmt 0); [|apply generic_format_0]. now apply nearest_le. }
    assert (S : d < succ radix2 (FLT_exp (-1074) 53) d).
    { destruct (Req_dec d 0) as [->|N]; [|now apply succ_gt_id]. rewrite succ_0. apply Rlt_le_trans with (bpow radix2 (-1074)); [apply bpow_gt_0|].
      rewrite ulp_FLT_0 by reflexivity. apply Rle_refl. }
    assert (N : succ radix2 (FLT_exp (-1074) 53) d <= nearest w).
    { apply round_N_ge_midp; auto; [now apply generic_format_succ|]. rewrite pred_succ by auto. lra. }
    lra.
  Qed.
  Lemma f64_int : forall n, Rabs (IZR n) <= bpow radix2 1023 -> real (f64 n 0) = nearest (IZR n) /\ finite (f64 n 0) = true.
  Proof.
    intros n B. unfold f64.
    pose proof (binary_normalize_correct 53 1024 eq_refl eq_refl mode_NE n 0 false) as H.
    repeat match type of H with context [round radix2 ?f ?m (F2R (Float radix2 n 0))] => change (round radix2 f m (F2R (Float radix2 n 0))) with (nearest (F2R (Float radix2 n 0))) in H end.
    replace (F2R (Float radix2 n 0)) with (IZR n) in H by (unfold F2R; cbn; lra).
    rewrite Rlt_bool_true in H.
    - destruct H as (H1 & H2 & _). auto.
    - eapply Rle_lt_trans; [apply nearest_within; [|exact B]|now apply bpow_lt].
      apply generic_format_bpow. unfold FLT_exp. lia.
  Qed.
  Lemma int_fmt : forall n, (Z.abs n <= 2 ^ 53)%Z -> fmt (IZR n).
  Proof.
    intros n B. destruct (Z.eq_dec (Z.abs n) (2 ^ 53)) as [E|N].
    - apply generic_format_abs_inv. rewrite <- abs_IZR, E. change (IZR (2 ^ 53)) with (bpow radix2 53). apply generic_format_bpow. unfold FLT_exp. lia.
    - apply generic_format_FLT. exists (Float radix2 n 0).
      + unfold F2R. cbn. lra.
      + cbn. change (2 ^ 53)%Z with 9007199254740992%Z in *. lia.
      + cbn. lia.
  Qed.
  Lemma f64_small : forall n, (Z.abs n <= 2 ^ 53)%Z -> real (f64 n 0) = IZR n /\ finite (f64 n 0) = true.
  Proof.
    intros n B. destruct (f64_int n) as [R F].
    { rewrite <- abs_IZR. eapply Rle_trans; [apply IZR_le; exact B|]. change (IZR (2 ^ 53)) with (bpow radix2 53). now apply bpow_le. }
    split; auto. rewrite R. now apply nearest_fmt, int_fmt.
  Qed.

  Lemma eq64_zero : forall x, finite x = true -> eq64 x (f64 0 0) = true <-> real x = 0.
  Proof.
    intros x F. destruct czero as [R0 F0]. unfold eq64, b64_compare. rewrite Bcompare_correct by auto. rewrite R0.
    destruct (Rcompare_spec (real x) 0); split; auto; try discriminate; lra.
  Qed.
  Lemma abs_real : forall d, real (b64_abs d) = Rabs (real d).
  Proof. intros d. unfold b64_abs. apply B2R_Babs. Qed.
  Lemma abs_finite : forall d, finite (b64_abs d) = finite d.
  Proof. intros d. unfold b64_abs. apply is_finite_Babs. Qed.
  Lemma InEpsilon_finite : forall e a x y d msgs, goodMessages msgs -> number e x -> number a y ->
    finite x = true -> finite y = true -> finite d = true -> real x <> 0 -> Rabs (nearest (real x - real y)) < bpow radix2 1024 ->
    decides (InEpsilon sprintf e a d msgs) (nearest (Rabs (nearest (real x - real y)) / Rabs (real x)) <= real d).
  Proof.
    intros e a x y d msgs G Nx Ny Fx Fy Fd Z B. apply toFloat_spec in Nx, Ny. unfold InEpsilon, calcRelativeError. rewrite Nx, Ny.
    replace (eq64 x (f64 0 0)) with false. 2: { destruct (eq64 x (f64 0 0)) eqn:E; auto. apply eq64_zero in E; auto; contradiction. }
    rewrite Fail_good by auto.
    destruct (minus_cases x y Fx Fy) as [(_ & R & F)|(B' & _)]; [|lra].
    set (dt := b64_minus mode_NE x y) in *.
    assert (Zx : real (b64_abs x) <> 0). { rewrite abs_real. now apply Rabs_no_R0. }
    pose proof (Bdiv_correct 53 1024 eq_refl eq_refl binop_nan_pl64 mode_NE (b64_abs dt) (b64_abs x) Zx) as H.
    
    rewrite !abs_real, R in H. repeat match type of H with context [round radix2 ?f ?m (Rabs (nearest (real x - real y)) / Rabs (real x))] => change (round radix2 f m (Rabs (nearest (real x - real y)) / Rabs (real x))) with (nearest (Rabs (nearest (real x - real y)) / Rabs (real x))) in H end.
    change (Bdiv 53 1024 eq_refl eq_refl binop_nan_pl64 mode_NE) with (b64_div mode_NE) in H.
    set (q := b64_div mode_NE (b64_abs dt) (b64_abs x)) in *.
    set (v := nearest (Rabs (nearest (real x - real y)) / Rabs (real x))) in *.
    destruct (Rlt_bool_spec (Rabs v) (bpow radix2 1024)) as [L|L].
    - destruct H as (Hq & Fq & _). rewrite abs_finite, F in Fq.
      destruct (lt64 d q) eqn:C.
      + right. split; auto. apply lt64_finite in C; auto. lra.
      + left. split; auto. apply Rnot_lt_le. intros C'. rewrite <- Hq in C'. apply lt64_finite in C'; auto. congruence.
    - right.
      assert (V : 0 <= v). { unfold v. rewrite <- (nearest_fmt 0); [|apply generic_format_0]. apply nearest_le.
        apply Rmult_le_pos; [apply Rabs_pos|]. left. apply Rinv_0_lt_compat. now apply Rabs_pos_lt. }
      rewrite Rabs_pos_eq in L by auto.
      assert (Q : q = B754_infinity 53 1024 false).
      { revert H. unfold b64_abs. rewrite !Bsign_Babs; [|destruct x; auto; discriminate|destruct dt; auto; discriminate]. cbn [xorb].
        destruct q; cbn; intros; try discriminate. congruence. }
      rewrite Q, (proj1 (lt64_inf d false Fd)). split; auto. pose proof (real_bound d Fd). pose proof (Rle_abs (real d)). lra.
  Qed.

  (** What InDelta does with what is not a finite number *)
  Lemma InDelta_notNumber : forall e a d msgs, goodMessages msgs -> ~ (exists x, number e x) \/ ~ (exists y, number a y) ->
    InDelta sprintf e a d msgs = Ret 1 false.
  Proof.
    intros e a d msgs G [N|N]; apply toFloat_none in N; unfold InDelta; rewrite N; [|destruct (toFloat e)]; now apply Fail_good.
  Qed.
  Lemma InDelta_nan : forall e a x y d msgs, goodMessages msgs -> number e x -> number a y -> isNaN x = true \/ isNaN y = true ->
    InDelta sprintf e a d msgs = Ret 1 false.
  Proof.
    intros e a x y d msgs G Nx Ny H. apply toFloat_spec in Nx, Ny. unfold InDelta. rewrite Nx, Ny, Fail_good by auto.
    destruct (isNaN x); auto. destruct H as [H|H]; [discriminate|]. now rewrite H.
  Qed.
  Lemma lt64_nan : forall x d, isNaN d = true -> lt64 x d = false /\ lt64 d x = false.
  Proof. intros x d H. destruct d; try discriminate. unfold lt64. destruct x; cbn; auto. Qed.
  Lemma opp_nan : forall d, isNaN d = true -> isNaN (b64_opp d) = true.
  Proof. intros d H. destruct d; try discriminate. reflexivity. Qed.
  Lemma InDelta_nanDelta : forall e a x y d msgs, number e x -> number a y -> isNaN x = false -> isNaN y = false -> isNaN d = true ->
    InDelta sprintf e a d msgs = Ret 0 true.
  Proof.
    intros e a x y d msgs Nx Ny Hx Hy Hd. apply toFloat_spec in Nx, Ny. unfold InDelta. rewrite Nx, Ny, Hx, Hy.
    now rewrite (proj1 (lt64_nan _ _ (opp_nan _ Hd))), (proj2 (lt64_nan (b64_minus mode_NE x y) _ Hd)).
  Qed.
  Lemma InDelta_sameInf : forall e a s d msgs, number e (B754_infinity 53 1024 s) -> number a (B754_infinity 53 1024 s) ->
    InDelta sprintf e a d msgs = Ret 0 true.
  Proof.
    intros e a s d msgs Nx Ny. apply toFloat_spec in Nx, Ny. unfold InDelta. rewrite Nx, Ny. cbn [isNaN].
    assert (H : isNaN (b64_minus mode_NE (B754_infinity 53 1024 s) (B754_infinity 53 1024 s)) = true) by (destruct s; reflexivity).
    now rewrite (proj2 (lt64_nan _ _ H)), (proj1 (lt64_nan d _ H)).
  Qed.
  (** One infinity, or two of opposite signs *)
  Lemma InDelta_inf : forall e a x y s d msgs, goodMessages msgs -> number e x -> number a y -> finite d = true ->
    (x = B754_infinity 53 1024 s /\ (finite y = true \/ y = B754_infinity 53 1024 (negb s))) \/ (finite x = true /\ y = B754_infinity 53 1024 s) ->
    InDelta sprintf e a d msgs = Ret 1 false.
  Proof.
    intros e a x y s d msgs G Nx Ny Fd H. apply toFloat_spec in Nx, Ny. unfold InDelta. rewrite Nx, Ny, Fail_good by auto.
    assert (Fo : finite (b64_opp d) = true) by now rewrite opp_finite.
    assert (I : forall t, (if lt64 (B754_infinity 53 1024 t) (b64_opp d) || lt64 d (B754_infinity 53 1024 t) then @Ret bool 1 false else Ret 0 true) = Ret 1 false).
    { intros [].
      - now rewrite (proj2 (lt64_inf _ true Fo)).
      - now rewrite (proj2 (lt64_inf _ false Fo)), (proj1 (lt64_inf _ false Fd)). }
    destruct H as [[-> [H| ->]]|[H ->]].
    - destruct y; try discriminate; apply (I s).
    - replace (isNaN _) with false by reflexivity. replace (isNaN _) with false by reflexivity.
      replace (b64_minus _ _ _) with (B754_infinity 53 1024 s) by (destruct s; reflexivity). apply I.
    - destruct x; try discriminate; apply (I (negb s)).
  Qed.

  (** * Slices and maps *)
  Lemma asSlice_spec : forall v l, asSlice v = Some l <-> sliceOf v l.
  Proof.
    intros v l. unfold sliceOf. split.
    - destruct v as [v|]; [|discriminate]. cbn. destruct (kindOf v =? 23)%Z eqn:K; [|discriminate]. apply Z.eqb_eq in K.
      intros H. apply items_elements in H. eauto.
    - intros (w & -> & K & H). cbn. rewrite K. cbn. now apply items_elements.
  Qed.
  Lemma asSlice_none : forall v, asSlice v = None <-> ~ exists l, sliceOf v l.
  Proof.
    intros v. split.
    - intros E [l H]. apply asSlice_spec in H. congruence.
    - intros N. destruct (asSlice v) eqn:E; auto. exfalso. apply N. exists l. now apply asSlice_spec.
  Qed.
  Definition passes (r : res bool) : Prop := r = Ret 0 true.
  Lemma pairLoop_short : forall A, (forall a e, A a e = Ret 0 true \/ A a e = Ret 1 false) -> forall act exp, (List.length act <= List.length exp)%nat ->
    decides (pairLoop A act exp) (Forall2 (fun a e => passes (A a e)) act (firstn (List.length act) exp)).
  Proof.
    intros A HA. induction act as [|a act IH]; intros exp L; [left; split; auto; constructor|].
    destruct exp as [|e exp]; cbn in L; [lia|]. cbn. destruct (HA a e) as [E|E]; rewrite E; cbn.
    - destruct (IH exp ltac:(lia)) as [[P ->]|[P ->]]; [left|right]; split; auto. intros F. inversion F; auto.
    - right. split; auto. intros F. inversion F; subst. unfold passes in *. congruence.
  Qed.
  Lemma pairLoop_long : forall A, (forall a e, A a e = Ret 0 true \/ A a e = Ret 1 false) -> forall act exp, (List.length exp < List.length act)%nat ->
    (Forall2 (fun a e => passes (A a e)) (firstn (List.length exp) act) exp /\ pairLoop A act exp = Pan 0) \/
    (~ Forall2 (fun a e => passes (A a e)) (firstn (List.length exp) act) exp /\ pairLoop A act exp = Ret 1 false).
  Proof.
    intros A HA. induction act as [|a act IH]; intros exp L; cbn in L; [lia|].
    destruct exp as [|e exp]; [left; split; auto; constructor|]. cbn in L. cbn. destruct (HA a e) as [E|E]; rewrite E; cbn.
    - destruct (IH exp ltac:(lia)) as [[P ->]|[P ->]]; [left|right]; split; auto. intros F. inversion F; auto.
    - right. split; auto. intros F. inversion F; subst. unfold passes in *. congruence.
  Qed.
  Lemma InDelta_two : forall e a d msgs, goodMessages msgs -> InDelta sprintf e a d msgs = Ret 0 true \/ InDelta sprintf e a d msgs = Ret 1 false.
  Proof.
    intros e a d msgs G. unfold InDelta. rewrite Fail_good by auto. destruct (toFloat e), (toFloat a); auto.
    destruct (isNaN b); auto. destruct (isNaN b0); auto. destruct (_ || _); auto.
  Qed.
  Lemma InEpsilon_two : forall e a d msgs, goodMessages msgs -> InEpsilon sprintf e a d msgs = Ret 0 true \/ InEpsilon sprintf e a d msgs = Ret 1 false.
  Proof.
    intros e a d msgs G. unfold InEpsilon. rewrite Fail_good by auto. destruct (calcRelativeError e a); auto. destruct (lt64 _ _); auto.
  Qed.
  Section Maps.
    Variable keyEq : iface -> iface -> bool.
    Lemma mapIndex_some : forall l k v, differentKeys keyEq l -> mapIndex keyEq l k = Some v <-> mapsTo keyEq l k v.
    Proof.
      intros l k v D.
      assert (S : forall v, mapIndex keyEq l k = Some v -> mapsTo keyEq l k v).
      { clear. intros v H. unfold mapIndex in H. destruct (find _ l) as [[k' v']|] eqn:F; [|discriminate]. cbn in H. injection H as <-.
        apply find_some in F. destruct F. exists k'. auto. }
      split; [apply S|]. intros M. destruct (mapIndex keyEq l k) as [v'|] eqn:E.
      - f_equal. eapply D; eauto.
      - destruct M as (k' & I & K). unfold mapIndex in E. destruct (find _ l) eqn:F; [discriminate|].
        apply (find_none _ _ F) in I. cbn in I. congruence.
    Qed.
    Lemma mapIndex_none : forall l k, differentKeys keyEq l -> mapIndex keyEq l k = None -> forall v, ~ mapsTo keyEq l k v.
    Proof. intros l k D H v M. apply mapIndex_some in M; auto. congruence. Qed.
    Lemma mapLoop_spec : forall keyAssignable te ta em am d msgs, goodMessages msgs -> differentKeys keyEq em -> differentKeys keyEq am ->
      keyAssignable te ta = true -> forall keys,
      decides (mapLoop sprintf keyEq keyAssignable te ta keys em am d msgs)
        (forall k, In k keys -> exists ev av, mapsTo keyEq em k ev /\ mapsTo keyEq am k av /\ passes (InDelta sprintf ev av d msgs)).
    Proof.
      intros ka te ta em am d msgs G De Da K. induction keys as [|k keys IH]; [left; split; auto; intros k []|].
      cbn. rewrite K. cbn. rewrite Fail_good by auto.
      destruct (mapIndex keyEq em k) as [ev|] eqn:E.
      2: { right. split; auto. intros H. destruct (H k (or_introl eq_refl)) as (ev & av & H1 & _). exact (mapIndex_none em k De E ev H1). }
      apply mapIndex_some in E; auto.
      destruct (mapIndex keyEq am k) as [av|] eqn:A.
      2: { right. split; auto. intros H. destruct (H k (or_introl eq_refl)) as (ev' & av & _ & H1 & _). exact (mapIndex_none am k Da A av H1). }
      apply mapIndex_some in A; auto.
      destruct (InDelta_two ev av d msgs G) as [R|R]; rewrite R; cbn.
      - destruct IH as [[H ->]|[H ->]]; [left|right]; split; auto.
        + intros k' [<-|I]; eauto 6.
      - right. split; auto. intros H. destruct (H k (or_introl eq_refl)) as (ev' & av' & H1 & H2 & H3).
        rewrite (De _ _ _ H1 E), (Da _ _ _ H2 A) in H3. unfold passes in H3. congruence.
    Qed.
  End Maps.
End Num.
