(** C34: the number of a point, when float64 does not hold the count exactly. *)
From Verif Require Import Base StatsModel.
From Coq Require Import Reals Lra.
From Flocq Require Import Core.
Open Scope Z_scope.

Lemma log2_mag : forall n, 0 < n -> mag radix2 (IZR n) = Z.log2 n + 1 :> Z.
Proof.
  intros n H. apply mag_unique_pos. destruct (Z.log2_spec n H) as [A B].
  replace (Z.log2 n + 1 - 1) with (Z.log2 n) by lia. replace (Z.log2 n + 1) with (Z.succ (Z.log2 n)) by lia.
  pose proof (Z.log2_nonneg n). rewrite <- !IZR_Zpower by lia. split; [apply IZR_le|apply IZR_lt]; exact A || exact B.
Qed.

(** The value of a point is the float64 nearest to the count (the one with the even significand, if two are as near). *)
Theorem C34_float64 : forall n, 0 <= n < 2 ^ 64 ->
  IZR (float64 n) = round radix2 (FLT_exp (-1074) 53) ZnearestE (IZR n).
Proof.
  intros n [H _]. destruct (Z.eq_dec n 0) as [->|N]; [symmetry; apply round_0; typeclasses eauto|].
  assert (P : 0 < n) by lia. unfold round, scaled_mantissa, cexp. rewrite (log2_mag n P). unfold FLT_exp.
  pose proof (Z.log2_nonneg n) as L0. rewrite Z.max_l by lia. unfold float64.
  destruct (Z.leb_spec (Z.log2 n) 52) as [Q|Q].
  - rewrite (Z.max_l 0) by lia. cbn [Z.eqb].
    assert (E : (IZR n * bpow radix2 (- (Z.log2 n + 1 - 53)))%R = IZR (n * 2 ^ (52 - Z.log2 n))).
    { rewrite mult_IZR. f_equal. change 2 with (radix_val radix2). rewrite IZR_Zpower by lia. f_equal. lia. }
    rewrite E. rewrite Zrnd_IZR by typeclasses eauto. unfold F2R. cbn [Fnum Fexp]. rewrite <- E, Rmult_assoc, <- bpow_plus.
    replace (- (Z.log2 n + 1 - 53) + (Z.log2 n + 1 - 53)) with 0 by lia. cbn [bpow]. lra.
  - set (e := Z.log2 n - 52). rewrite (Z.max_r 0) by lia. fold e. replace (Z.log2 n + 1 - 53) with e by lia.
    assert (He : 0 < e) by lia. destruct (Z.eqb_spec e 0) as [|_]; [lia|].
    set (q := n / 2 ^ e). set (r := n mod 2 ^ e).
    assert (D : n = 2 ^ e * q + r) by (apply Z.div_mod; lia).
    assert (R : 0 <= r < 2 ^ e) by (apply Z.mod_pos_bound; lia).
    assert (B : (0 < bpow radix2 e)%R) by apply bpow_gt_0.
    assert (P2 : IZR (2 ^ e) = bpow radix2 e) by (change 2 with (radix_val radix2); apply IZR_Zpower; lia).
    assert (X : (IZR n * bpow radix2 (- e))%R = (IZR q + IZR r / bpow radix2 e)%R).
    { rewrite bpow_opp, D, plus_IZR, mult_IZR, P2. field. lra. }
    rewrite X. assert (R1 : (0 <= IZR r / bpow radix2 e < 1)%R).
    { rewrite <- P2. split.
      - apply Rmult_le_pos; [apply IZR_le; lia|]. left. apply Rinv_0_lt_compat. rewrite P2. exact B.
      - apply (Rmult_lt_reg_r (IZR (2 ^ e))); [rewrite P2; exact B|]. unfold Rdiv. rewrite Rmult_assoc, Rinv_l by (rewrite P2; lra).
        rewrite Rmult_1_r, Rmult_1_l. apply IZR_lt. lia. }
    assert (F : Zfloor (IZR q + IZR r / bpow radix2 e) = q) by (apply Zfloor_imp; rewrite plus_IZR; lra).
    assert (Hf : 2 ^ e = 2 * 2 ^ (e - 1)) by (rewrite <- Z.pow_succ_r by lia; f_equal; lia).
    assert (C : Rcompare (IZR r / bpow radix2 e) (/ 2) = (r ?= 2 ^ (e - 1))).
    { rewrite <- Rcompare_IZR. rewrite <- P2, Hf, mult_IZR.
      assert (G : (0 < IZR (2 ^ (e - 1)))%R) by (apply IZR_lt, Z.pow_pos_nonneg; lia).
      rewrite <- (Rcompare_mult_r (2 * IZR (2 ^ (e - 1)))) by lra. f_equal; field; lra. }
    assert (M : ZnearestE (IZR q + IZR r / bpow radix2 e) = if (2 ^ (e - 1) <? r) || ((r =? 2 ^ (e - 1)) && Z.odd q) then q + 1 else q).
    { unfold Znearest. rewrite F. replace (IZR q + IZR r / bpow radix2 e - IZR q)%R with (IZR r / bpow radix2 e)%R by ring.
      assert (U : r <> 0 -> Zceil (IZR q + IZR r / bpow radix2 e) = q + 1).
      { intros R0. rewrite <- F at 2. apply Zceil_floor_neq. rewrite F. intros K.
        assert (IZR r / bpow radix2 e = 0)%R as K' by lra. apply Rmult_integral in K' as [K'|K'].
        - apply R0. now apply eq_IZR.
        - apply Rinv_neq_0_compat in K'; [exact K'|lra]. }
      rewrite C. assert (0 < 2 ^ (e - 1)) by (apply Z.pow_pos_nonneg; lia).
      destruct (Z.compare_spec r (2 ^ (e - 1))) as [K|K|K].
      - rewrite <- K, Z.ltb_irrefl, Z.eqb_refl. cbn [orb andb]. rewrite Z.negb_even. destruct (Z.odd q); [|reflexivity]. apply U. lia.
      - replace (2 ^ (e - 1) <? r) with false by (symmetry; apply Z.ltb_ge; lia). destruct (Z.eqb_spec r (2 ^ (e - 1))); [lia|]. reflexivity.
      - replace (2 ^ (e - 1) <? r) with true by (symmetry; apply Z.ltb_lt; lia). cbn [orb]. apply U. lia. }
    rewrite M. unfold F2R. cbn [Fnum Fexp]. rewrite <- P2, <- mult_IZR. destruct (_ || _); reflexivity.
Qed.
Print Assumptions C34_float64.
(** 2^53 + 1 and 2^53 + 3 are both in the middle between two; 2^54 + 3 is nearer to 2^54 + 4. *)
Example C34_float64_example : float64 (2 ^ 53 + 1) = 2 ^ 53 /\ float64 (2 ^ 53 + 3) = 2 ^ 53 + 4 /\ float64 (2 ^ 54 + 3) = 2 ^ 54 + 4 /\
  float64 (2 ^ 54 + 5) = 2 ^ 54 + 4 /\ float64 (2 ^ 64 - 1) = 2 ^ 64.
Proof. repeat split; vm_compute; reflexivity. Qed.
