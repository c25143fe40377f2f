From Verif Require Import Base JsonIntModel DecimalSpec DecimalProofs JsonIntProofs JsonStrProofs JsonFloatModel.
From Coq Require Import Reals Lra.
From Flocq Require Import Core IEEE754.Binary IEEE754.Bits.
Open Scope Z_scope.
Open Scope list_scope.

(** * The text of a number of millionths *)

(** [t] is the decimal text of [l] millionths: canonical integer part, and when the fraction is not zero
    a point and at most six digits, the last one not zero. *)
Definition millionths_text (t : bytes) (l : Z) : Prop :=
  exists ip fp, t = ip ++ (match fp with [] => [] | _ => 46 :: fp end) /\
    canon_nat ip (l / 10^6) /\ forallb is_digit fp = true /\ lenZ fp <= 6 /\
    (fp <> [] -> last fp 48 <> 48) /\
    digits_value fp * 10 ^ (6 - lenZ fp) = l mod 10^6.

Lemma stripRev_digits : forall d, forallb is_digit d = true -> 0 < digits_value d ->
  exists d' k, (forall pre, stripRev (rev (pre ++ d)) = Some (rev (pre ++ d'))) /\ d' <> [] /\
    forallb is_digit d' = true /\ last d' 48 <> 48 /\ lenZ d = lenZ d' + k /\ 0 <= k /\
    digits_value d = digits_value d' * 10 ^ k.
Proof.
  induction d as [|c d IH] using rev_ind; intros D V.
  - cbn in V. lia.
  - rewrite forallb_app in D. apply andb_true_iff in D as [D1 D2]. cbn in D2. rewrite andb_true_r in D2.
    assert (R : forall pre, stripRev (rev (pre ++ d ++ [c])) = if c =? 48 then stripRev (rev (pre ++ d)) else Some (rev (pre ++ d ++ [c]))).
    { intros pre. rewrite !app_assoc, rev_app_distr. reflexivity. }
    rewrite digits_value_app in V |- *. change (lenZ [c]) with 1 in *. rewrite Z.pow_1_r in *.
    change (digits_value [c]) with (c - 48) in *.
    destruct (c =? 48) eqn:E.
    + destruct (IH D1 ltac:(lia)) as (d' & k & S1 & N & D' & L & Len & K & Val).
      exists d', (k + 1). split; [intros pre; rewrite R; apply S1|].
      rewrite lenZ_app, Val, Z.pow_add_r by lia. change (lenZ [c]) with 1.
      repeat split; auto; lia.
    + exists (d ++ [c]), 0.
      split; [exact R|]. split; [destruct d; discriminate|]. rewrite forallb_app, D1. cbn. rewrite D2.
      split; auto. rewrite last_last. split; [lia|]. split; [lia|]. split; [lia|].
      rewrite digits_value_app. change (lenZ [c]) with 1. change (digits_value [c]) with (c - 48). lia.
Qed.

Lemma canon_len : forall t n k, canon_nat t n -> 0 <= k -> 10 ^ k <= n < 10 ^ (k + 1) -> lenZ t = k + 1.
Proof.
  intros t n k C K B. destruct t as [|c t]; [destruct C as [C _]; congruence|].
  assert (0 < n) by (pose proof (Z.pow_pos_nonneg 10 k ltac:(lia) K); lia).
  pose proof (canon_nat_lower _ _ _ C H) as L1.
  destruct C as (_ & D & V & _). pose proof (digits_value_bounds _ D) as L2. rewrite V in L2.
  rewrite lenZ_cons in *. pose proof (lenZ_nonneg t).
  assert (10 ^ lenZ t < 10 ^ (k + 1)) as A by lia.
  assert (10 ^ k < 10 ^ (1 + lenZ t)) as B' by lia.
  apply Z.pow_lt_mono_r_iff in A; [|lia|lia]. apply Z.pow_lt_mono_r_iff in B'; lia.
Qed.

Lemma padZeros_spec : forall t fval space, canon_nat t fval -> 0 < fval < 10^6 ->
  exists z, padZeros 5 fval space = Some (space ++ repeat 48 z) /\ Z.of_nat z + lenZ t = 6.
Proof.
  intros t fval space C H.
  assert (L : forall k, 0 <= k -> 10 ^ k <= fval < 10 ^ (k + 1) -> lenZ t = k + 1) by (intros; eapply canon_len; eauto).
  unfold padZeros.
  change (nthZ pow10 (Z.of_nat 5)) with (Some 100000). change (nthZ pow10 (Z.of_nat 4)) with (Some 10000).
  change (nthZ pow10 (Z.of_nat 3)) with (Some 1000). change (nthZ pow10 (Z.of_nat 2)) with (Some 100).
  change (nthZ pow10 (Z.of_nat 1)) with (Some 10). cbn [obind].
  destruct (fval <? 100000) eqn:E5; [|exists 0%nat; cbn [repeat]; rewrite app_nil_r; split; [reflexivity|rewrite (L 5); lia]].
  destruct (fval <? 10000) eqn:E4; [|exists 1%nat; split; [reflexivity|rewrite (L 4); lia]].
  destruct (fval <? 1000) eqn:E3; [|exists 2%nat; split; [cbn [repeat]; rewrite <- !app_assoc; reflexivity|rewrite (L 3); lia]].
  destruct (fval <? 100) eqn:E2; [|exists 3%nat; split; [cbn [repeat]; rewrite <- !app_assoc; reflexivity|rewrite (L 2); lia]].
  destruct (fval <? 10) eqn:E1; [|exists 4%nat; split; [cbn [repeat]; rewrite <- !app_assoc; reflexivity|rewrite (L 1); lia]].
  exists 5%nat; split; [cbn [repeat]; rewrite <- !app_assoc; reflexivity|rewrite (L 0); lia].
Qed.

Lemma digits_value_zeros : forall z t, digits_value (repeat 48 z ++ t) = digits_value t.
Proof.
  induction z; intros t; auto. cbn [repeat app]. rewrite dv_cons, IHz. lia.
Qed.

Lemma zeros_digits : forall z, forallb is_digit (repeat 48 z) = true.
Proof. induction z; auto. Qed.

Lemma WriteUint64_text : forall t n, canon_nat t n -> 0 <= n < 10^19 ->
  forall space, WriteUint64 space n = Some (space ++ t).
Proof.
  intros t n C Hn space. destruct (WriteUint64_ok space n Hn) as (t' & -> & C').
  f_equal. f_equal. eapply canon_nat_unique; eauto.
Qed.

Lemma writeMillionths_ok : forall l, 0 <= l < 10^19 ->
  exists t, (forall space, writeMillionths space l = Some (space ++ t)) /\ millionths_text t l.
Proof.
  intros l Hl. unfold writeMillionths. change 1000000 with (10^6).
  assert (Hd : 0 <= l / 10^6 < 10^19).
  { split; [apply Z.div_pos; lia|]. apply Z.div_lt_upper_bound; lia. }
  assert (Hm : 0 <= l mod 10^6 < 10^6) by (apply Z.mod_pos_bound; lia).
  destruct (WriteUint64_ok [] (l / 10^6) Hd) as (ip & _ & Cip).
  pose proof (WriteUint64_text ip _ Cip Hd) as Wip.
  destruct (l mod 10^6 =? 0) eqn:E.
  - exists ip. split; [intros; rewrite Wip; reflexivity|]. exists ip, []. cbn [List.app]. rewrite app_nil_r.
    split; auto. split; auto. split; auto. split; [cbn; lia|]. split; [congruence|]. cbn -[Z.modulo Z.pow]. lia.
  - destruct (WriteUint64_ok [] (l mod 10^6) ltac:(lia)) as (ft & _ & Cft).
    pose proof (WriteUint64_text ft _ Cft ltac:(lia)) as Wft.
    destruct (padZeros_spec ft (l mod 10^6) [] Cft ltac:(lia)) as (z & _ & Lz).
    assert (Wz : forall space, padZeros 5 (l mod 10^6) space = Some (space ++ repeat 48 z)).
    { intros space. destruct (padZeros_spec ft (l mod 10^6) space Cft ltac:(lia)) as (z' & -> & Lz').
      replace z' with z by lia. reflexivity. }
    destruct Cft as (_ & Dft & Vft & _).
    destruct (stripRev_digits (repeat 48 z ++ ft)) as (fp & k & S1 & N & D' & L & Len & K & Val).
    { rewrite forallb_app, zeros_digits, Dft. reflexivity. }
    { rewrite digits_value_zeros. lia. }
    rewrite digits_value_zeros, Vft in Val.
    exists (ip ++ 46 :: fp). split.
    { intros space. rewrite Wip. cbn [obind]. rewrite Wz. cbn [obind]. rewrite Wft. cbn [obind].
      rewrite <- (app_assoc _ (repeat 48 z)), S1. cbn [obind]. rewrite rev_involutive.
      rewrite <- !app_assoc; reflexivity. }
    rewrite lenZ_app in Len. unfold lenZ at 1 in Len. rewrite repeat_length in Len.
    exists ip, fp. split; [destruct fp; congruence|]. split; auto. split; auto. split; [lia|].
    split; auto. rewrite Val. f_equal. f_equal. lia.
Qed.

(** * The rounding *)
Local Open Scope R_scope.

Definition sme {prec emax} (x : binary_float prec emax) : option (bool * positive * Z) :=
  match x with B754_finite _ _ s m e _ => Some (s, m, e) | _ => None end.

Lemma B2R_sme : forall prec emax (x : binary_float prec emax) s m e, sme x = Some (s, m, e) ->
  B2R prec emax x = F2R (Float radix2 (cond_Zopp s (Zpos m)) e) /\ is_finite prec emax x = true.
Proof. intros prec emax [] s' m' e' H; try discriminate. cbn in H. injection H as -> -> ->. auto. Qed.

Lemma c1e6 : B2R 53 1024 (f64 1000000 0) = 1000000 /\ is_finite 53 1024 (f64 1000000 0) = true.
Proof.
  destruct (B2R_sme 53 1024 (f64 1000000 0) false 8589934592000000 (-33)) as [-> ->]; [vm_compute; reflexivity|].
  split; auto. unfold F2R. cbn. lra.
Qed.
Lemma chalf : B2R 53 1024 (f64 1 (-1)) = / 2 /\ is_finite 53 1024 (f64 1 (-1)) = true.
Proof.
  destruct (B2R_sme 53 1024 (f64 1 (-1)) false 4503599627370496 (-53)) as [-> ->]; [vm_compute; reflexivity|].
  split; auto. unfold F2R. cbn. lra.
Qed.
Lemma cbound : B2R 53 1024 (f64 83886079 0) = 83886079 /\ is_finite 53 1024 (f64 83886079 0) = true.
Proof.
  destruct (B2R_sme 53 1024 (f64 83886079 0) false 5629499467104256 (-26)) as [-> ->]; [vm_compute; reflexivity|].
  split; auto. unfold F2R. cbn. lra.
Qed.

Lemma lt64_R : forall a b, is_finite 53 1024 a = true -> is_finite 53 1024 b = true ->
  lt64 a b = Rlt_bool (B2R 53 1024 a) (B2R 53 1024 b).
Proof.
  intros a b Fa Fb. unfold lt64, b64_compare. rewrite Bcompare_correct by auto.
  unfold Rlt_bool. destruct (Rcompare _ _); reflexivity.
Qed.

Local Notation fexp := (FLT_exp (3 - 1024 - 53) 53).
Local Notation rnd := (round radix2 fexp ZnearestE).

Lemma round_err : forall x, Rabs x < bpow radix2 47 ->
  Rabs (rnd x - x) <= / 128 /\ Rabs (rnd x) <= bpow radix2 47.
Proof.
  intros x Hx.
  assert (Vexp : Valid_exp fexp) by (apply FLT_exp_valid; reflexivity).
  split.
  - destruct (Req_dec x 0) as [->|N0].
    { rewrite round_0 by auto with typeclass_instances. replace (0 - 0) with 0 by lra. rewrite Rabs_R0. lra. }
    eapply Rle_trans; [apply error_le_half_ulp; auto with typeclass_instances|].
    rewrite ulp_neq_0 by auto.
    assert (bpow radix2 (cexp radix2 fexp x) <= bpow radix2 (-6)).
    { apply bpow_le. unfold cexp, FLT_exp. pose proof (mag_le_bpow radix2 x 47 N0 Hx). lia. }
    change (bpow radix2 (-6)) with (/ 64) in H. lra.
  - apply abs_round_le_generic; auto with typeclass_instances.
    + apply generic_format_bpow. unfold FLT_exp. lia.
    + lra.
Qed.

Lemma small_no_overflow : forall y, Rabs y <= bpow radix2 47 -> Rlt_bool (Rabs y) (bpow radix2 1024) = true.
Proof.
  intros y H. apply Rlt_bool_true. eapply Rle_lt_trans; [exact H|]. now apply bpow_lt.
Qed.

(** The scaled integer is within half a unit plus the rounding error of the exact product. *)
Lemma lval_bound : forall v, is_finite 53 1024 v = true -> 0 <= B2R 53 1024 v <= 83886080 ->
  let l := Btrunc 53 1024 (b64_plus mode_NE (b64_mult mode_NE v (f64 1000000 0)) (f64 1 (-1))) in
  Rabs (IZR l - B2R 53 1024 v * 1000000) <= / 2 + / 64 /\ (0 <= l < 2^48)%Z.
Proof.
  intros v Fv Hv l. set (x := B2R 53 1024 v) in *.
  destruct c1e6 as [E6 F6]. destruct chalf as [Eh Fh].
  assert (B47 : bpow radix2 47 = 140737488355328) by (cbn; lra).
  assert (Hm : Rabs (x * 1000000) < bpow radix2 47) by (rewrite B47, Rabs_pos_eq; lra).
  destruct (round_err _ Hm) as [M1 M2].
  pose proof (Bmult_correct 53 1024 (eq_refl _) (eq_refl _) binop_nan_pl64 mode_NE v (f64 1000000 0)) as BM.
  rewrite E6 in BM. fold x in BM. change (BinarySingleNaN.round_mode mode_NE) with ZnearestE in BM.
  rewrite small_no_overflow in BM by exact M2. destruct BM as (BM1 & BM2 & _).
  rewrite Fv, F6 in BM2. cbn in BM2.
  change (Bmult 53 1024 eq_refl eq_refl binop_nan_pl64 mode_NE v (f64 1000000 0)) with (b64_mult mode_NE v (f64 1000000 0)) in *.
  set (m := b64_mult mode_NE v (f64 1000000 0)) in *.
  pose proof (Bplus_correct 53 1024 (eq_refl _) (eq_refl _) binop_nan_pl64 mode_NE m (f64 1 (-1)) BM2 Fh) as BP.
  rewrite Eh in BP. change (BinarySingleNaN.round_mode mode_NE) with ZnearestE in BP.
  rewrite BM1 in BP.
  assert (M3 : - / 128 <= rnd (x * 1000000) - x * 1000000 <= / 128) by (apply Rabs_le_inv; exact M1).
  assert (Hp : Rabs (rnd (x * 1000000) + / 2) < bpow radix2 47) by (rewrite B47; apply Rabs_lt; lra).
  destruct (round_err _ Hp) as [P1 P2].
  rewrite small_no_overflow in BP by exact P2. destruct BP as (BP1 & BP2 & _).
  change (Bplus 53 1024 eq_refl eq_refl binop_nan_pl64 mode_NE m (f64 1 (-1))) with (b64_plus mode_NE m (f64 1 (-1))) in *.
  assert (T : l = Ztrunc (rnd (rnd (x * 1000000) + / 2))).
  { apply eq_IZR. unfold l. rewrite Btrunc_correct, BP1 by reflexivity. apply round_FIX_IZR. }
  set (y := rnd (rnd (x * 1000000) + / 2)) in *.
  assert (P3 : - / 128 <= y - (rnd (x * 1000000) + / 2) <= / 128) by (apply Rabs_le_inv; exact P1).
  assert (Hy : 0 <= y) by lra.
  rewrite Ztrunc_floor in T by exact Hy. rewrite T.
  pose proof (Zfloor_lb y) as F1. pose proof (Zfloor_ub y) as F2.
  split.
  - apply Rabs_le. lra.
  - split.
    + apply Zfloor_lub. exact Hy.
    + apply lt_IZR. change (IZR (2^48)) with 281474976710656. lra.
Qed.

Lemma czero : B2R 53 1024 (f64 0 0) = 0 /\ is_finite 53 1024 (f64 0 0) = true.
Proof. split; reflexivity. Qed.

Lemma float64_main : forall ff v, is_finite 53 1024 v = true -> Rabs (B2R 53 1024 v) <= 83886079 ->
  exists t l, (forall space, WriteFloat64Lossy ff space v =
    Some (space ++ (if Rlt_bool (B2R 53 1024 v) 0 then [45%Z] else []) ++ t)) /\
    millionths_text t l /\ Rabs (IZR l - Rabs (B2R 53 1024 v) * 1000000) <= / 2 + / 64.
Proof.
  intros ff v Fv Hv. unfold WriteFloat64Lossy.
  destruct czero as [E0 F0]. destruct cbound as [Eb Fb].
  change 0x4ffffff%Z with 83886079%Z.
  rewrite (lt64_R v (f64 0 0)) by auto. rewrite E0.
  set (x := B2R 53 1024 v) in *.
  set (w := if Rlt_bool x 0 then b64_opp v else v).
  assert (Ew : B2R 53 1024 w = Rabs x /\ is_finite 53 1024 w = true).
  { unfold w. destruct (Rlt_bool_spec x 0).
    - unfold b64_opp. rewrite B2R_Bopp, is_finite_Bopp. fold x. rewrite Rabs_left by auto. auto.
    - fold x. rewrite Rabs_pos_eq by auto. auto. }
  destruct Ew as [Ew Fw].
  rewrite lt64_R by auto. rewrite Eb, Ew. rewrite Rlt_bool_false by auto.
  destruct (lval_bound w Fw) as [B1 B2].
  { rewrite Ew. split; [apply Rabs_pos|lra]. }
  set (l := Btrunc _ _ _) in *. rewrite Ew in B1.
  unfold u64. rewrite Z.mod_small by lia.
  destruct (writeMillionths_ok l) as (t & E & T); [lia|].
  exists t, l. split; [|split; auto]. intros space. rewrite E.
  destruct (Rlt_bool x 0); [rewrite <- app_assoc|]; reflexivity.
Qed.

Lemma f64_of_f32_exact : forall x, is_finite 24 128 x = true ->
  B2R 53 1024 (f64_of_f32 x) = B2R 24 128 x /\ is_finite 53 1024 (f64_of_f32 x) = true.
Proof.
  intros x Fx. destruct x as [s|s|s pl H|s m e H]; try discriminate.
  - split; reflexivity.
  - pose proof (binary_normalize_correct 53 1024 (eq_refl _) (eq_refl _) mode_NE (cond_Zopp s (Z.pos m)) e s) as N.
    change (BinarySingleNaN.round_mode mode_NE) with ZnearestE in N.
    pose proof (abs_B2R_lt_emax 24 128 (B754_finite 24 128 s m e H)) as Hb.
    pose proof (generic_format_B2R 24 128 (B754_finite 24 128 s m e H)) as G.
    cbn [B2R] in Hb, G. cbn [f64_of_f32].
    rewrite round_generic in N; auto with typeclass_instances.
    + rewrite Rlt_bool_true in N.
      * destruct N as (N1 & N2 & _). split; auto.
      * eapply Rlt_trans; [exact Hb|]. now apply bpow_lt.
    + apply FLT_format_generic in G; [|reflexivity]. destruct G as [f E1 E2 E3].
      apply generic_format_FLT. exists f.
      * exact E1.
      * eapply Z.lt_trans; [exact E2|]. now compute.
      * eapply Z.le_trans; [|exact E3]. now compute.
Qed.

Lemma cbound32 : B2R 24 128 (f32 83886079 0) = 83886080 /\ is_finite 24 128 (f32 83886079 0) = true.
Proof.
  destruct (B2R_sme 24 128 (f32 83886079 0) false 10485760 3) as [-> ->]; [vm_compute; reflexivity|].
  split; auto. unfold F2R. cbn. lra.
Qed.

Lemma lt32_R : forall a b, is_finite 24 128 a = true -> is_finite 24 128 b = true ->
  lt32 a b = Rlt_bool (B2R 24 128 a) (B2R 24 128 b).
Proof.
  intros a b Fa Fb. unfold lt32, b32_compare. rewrite Bcompare_correct by auto.
  unfold Rlt_bool. destruct (Rcompare _ _); reflexivity.
Qed.

Lemma float32_main : forall ff v, is_finite 24 128 v = true -> Rabs (B2R 24 128 v) <= 83886080 ->
  exists t l, (forall space, WriteFloat32Lossy ff space v =
    Some (space ++ (if Rlt_bool (B2R 24 128 v) 0 then [45%Z] else []) ++ t)) /\
    millionths_text t l /\ Rabs (IZR l - Rabs (B2R 24 128 v) * 1000000) <= / 2 + / 64.
Proof.
  intros ff v Fv Hv. unfold WriteFloat32Lossy.
  assert (Z0 : B2R 24 128 (f32 0 0) = 0 /\ is_finite 24 128 (f32 0 0) = true) by (split; reflexivity).
  destruct Z0 as [E0 F0]. destruct cbound32 as [Eb Fb].
  change 0x4ffffff%Z with 83886079%Z.
  rewrite (lt32_R v (f32 0 0)) by auto. rewrite E0.
  set (x := B2R 24 128 v) in *.
  set (w := if Rlt_bool x 0 then b32_opp v else v).
  assert (Ew : B2R 24 128 w = Rabs x /\ is_finite 24 128 w = true).
  { unfold w. destruct (Rlt_bool_spec x 0).
    - unfold b32_opp. rewrite B2R_Bopp, is_finite_Bopp. fold x. rewrite Rabs_left by auto. auto.
    - fold x. rewrite Rabs_pos_eq by auto. auto. }
  destruct Ew as [Ew Fw].
  rewrite lt32_R by auto. rewrite Eb, Ew. rewrite Rlt_bool_false by auto.
  destruct (f64_of_f32_exact w Fw) as [Cw FC].
  destruct (lval_bound (f64_of_f32 w) FC) as [B1 B2].
  { rewrite Cw, Ew. split; [apply Rabs_pos|lra]. }
  set (l := Btrunc _ _ _) in *. rewrite Cw, Ew in B1.
  unfold u64. rewrite Z.mod_small by lia.
  destruct (writeMillionths_ok l) as (t & E & T); [lia|].
  exists t, l. split; [|split; auto]. intros space. rewrite E.
  destruct (Rlt_bool x 0); [rewrite <- app_assoc|]; reflexivity.
Qed.

(** From millionths to the exact decimal value. *)
Lemma millionths_value : forall ip fp l, canon_nat ip (l / 10^6) -> (lenZ fp <= 6)%Z ->
  (digits_value fp * 10 ^ (6 - lenZ fp) = l mod 10^6)%Z ->
  IZR (digits_value ip) + IZR (digits_value fp) / IZR (10 ^ lenZ fp) = IZR l / 1000000.
Proof.
  intros ip fp l (_ & _ & V & _) L D. rewrite V.
  pose proof (Z.div_mod l (10^6) ltac:(lia)) as DM.
  assert (P : (10 ^ lenZ fp * 10 ^ (6 - lenZ fp) = 10 ^ 6)%Z).
  { pose proof (lenZ_nonneg fp). rewrite <- Z.pow_add_r by lia. f_equal. lia. }
  assert (P1 : (0 < 10 ^ lenZ fp)%Z) by (apply Z.pow_pos_nonneg; [lia|apply lenZ_nonneg]).
  assert (P2 : (0 < 10 ^ (6 - lenZ fp))%Z) by (apply Z.pow_pos_nonneg; lia).
  set (a := (10 ^ lenZ fp)%Z) in *. set (b := (10 ^ (6 - lenZ fp))%Z) in *.
  change (10^6)%Z with 1000000%Z in *.
  set (q := (l / 1000000)%Z) in *. set (r := (l mod 1000000)%Z) in *. clearbody q r a b.
  subst l r. apply IZR_lt in P1, P2. apply (f_equal IZR) in P. rewrite mult_IZR in P.
  rewrite plus_IZR, !mult_IZR. rewrite <- P. field. lra.
Qed.
