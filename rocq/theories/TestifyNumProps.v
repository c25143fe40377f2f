(** C91, C92: InDelta and InEpsilon of test/testify/assert, for slices and maps too. *)
From Verif Require Import Base JsonFloatModel JsonFloatProofs TestifyModel TestifySpec TestifyProofs TestifyNumProofs.
From Coq Require Import Reals Lra Lia.
From Flocq Require Import Core IEEE754.Binary IEEE754.Bits.
Open Scope Z_scope.
Open Scope list_scope.

(** * C91: InDelta *)
(** For finite numbers: the difference, rounded to a float64, is at most delta. *)
Theorem C91_rounded : forall sprintf expected actual x y delta msgs, goodMessages msgs -> number expected x -> number actual y ->
  finite x = true -> finite y = true -> finite delta = true ->
  decides (InDelta sprintf expected actual delta msgs) (Rabs (nearest (real x - real y)) <= real delta)%R.
Proof. intros. now apply InDelta_finite. Qed.
(** So it passes if the difference is at most delta, and if it passes the difference is at most half way to the float64 after delta. *)
Theorem C91_bounds_partial : forall sprintf expected actual x y delta msgs, goodMessages msgs -> number expected x -> number actual y ->
  finite x = true -> finite y = true -> finite delta = true ->
  ((Rabs (real x - real y) <= real delta)%R -> InDelta sprintf expected actual delta msgs = Ret 0 true) /\
  (InDelta sprintf expected actual delta msgs = Ret 0 true ->
   (Rabs (real x - real y) <= (real delta + succ radix2 (FLT_exp (-1074) 53) (real delta)) / 2)%R).
Proof.
  intros sprintf e a x y d msgs G Nx Ny Fx Fy Fd. pose proof (InDelta_finite sprintf e a x y d msgs G Nx Ny Fx Fy Fd) as D. split.
  - intros H. destruct D as [[_ E]|[N _]]; auto. exfalso. apply N. apply nearest_within; auto. apply real_fmt.
  - intros H. destruct D as [[P _]|[_ E]]; [|congruence]. apply within_nearest; auto. apply real_fmt.
Qed.
(** Integers of at most 52 bits are compared exactly. *)
Theorem C91_integers : forall sprintf ty k n ty' k' n' delta msgs, goodMessages msgs -> In ty intTypes -> In ty' intTypes ->
  Z.abs n <= 2 ^ 52 -> Z.abs n' <= 2 ^ 52 -> finite delta = true ->
  decides (InDelta sprintf (Some (VInt ty k n)) (Some (VInt ty' k' n')) delta msgs) (IZR (Z.abs (n - n')) <= real delta)%R.
Proof.
  intros sprintf ty k n ty' k' n' d msgs G T T' B B' Fd. change (2 ^ 52) with 4503599627370496 in *.
  destruct (f64_small n) as [R F]. { change (2 ^ 53) with 9007199254740992. lia. }
  destruct (f64_small n') as [R' F']. { change (2 ^ 53) with 9007199254740992. lia. }
  pose proof (InDelta_finite sprintf (Some (VInt ty k n)) (Some (VInt ty' k' n')) _ _ d msgs G (num_int _ _ _ T) (num_int _ _ _ T') F F' Fd) as D.
  rewrite R, R', <- minus_IZR, nearest_fmt, <- abs_IZR in D; auto. apply int_fmt. change (2 ^ 53) with 9007199254740992. lia.
Qed.
(** What are not numbers, and NaN, fail. *)
Theorem C91_not_numbers : forall sprintf expected actual delta msgs, goodMessages msgs ->
  ~ (exists x, number expected x /\ isNaN x = false) \/ ~ (exists y, number actual y /\ isNaN y = false) ->
  InDelta sprintf expected actual delta msgs = Ret 1 false.
Proof.
  intros sprintf e a d msgs G H. destruct (toFloat e) as [x|] eqn:X.
  2: { apply toFloat_none in X. apply InDelta_notNumber; auto. }
  destruct (toFloat a) as [y|] eqn:Y.
  2: { apply toFloat_none in Y. apply InDelta_notNumber; auto. }
  apply toFloat_spec in X, Y. apply InDelta_nan with (x := x) (y := y); auto.
  destruct (isNaN x) eqn:NX, (isNaN y) eqn:NY; auto. exfalso. destruct H as [H|H]; apply H; eauto.
Qed.
(** Equal infinities pass, an infinity and something else fails. *)
Theorem C91_infinities : forall sprintf expected actual x y s delta msgs, goodMessages msgs -> number expected x -> number actual y ->
  (x = B754_infinity 53 1024 s -> y = B754_infinity 53 1024 s -> InDelta sprintf expected actual delta msgs = Ret 0 true) /\
  (finite delta = true -> (x = B754_infinity 53 1024 s /\ (finite y = true \/ y = B754_infinity 53 1024 (negb s))) \/ (finite x = true /\ y = B754_infinity 53 1024 s) ->
   InDelta sprintf expected actual delta msgs = Ret 1 false).
Proof.
  intros sprintf e a x y s d msgs G Nx Ny. split.
  - intros -> ->. eapply InDelta_sameInf; eauto.
  - intros Fd H. eapply InDelta_inf; eauto.
Qed.
(** Every two numbers that are not NaN are within NaN. *)
Theorem C91_nan_delta_refuted : forall sprintf expected actual x y delta msgs, number expected x -> number actual y ->
  isNaN x = false -> isNaN y = false -> isNaN delta = true -> InDelta sprintf expected actual delta msgs = Ret 0 true.
Proof. intros. eapply InDelta_nanDelta; eauto. Qed.
(** InDelta is exact for integers *)
Definition C91_full : Prop := forall sprintf n n' delta msgs, - 2 ^ 63 <= n < 2 ^ 63 -> - 2 ^ 63 <= n' < 2 ^ 63 -> finite delta = true ->
  InDelta sprintf (Some (VInt 6 6 n)) (Some (VInt 6 6 n')) delta msgs = Ret 0 true -> (IZR (Z.abs (n - n')) <= real delta)%R.
Theorem C91_large_refuted : InDelta exampleSprintf (Some (VInt 6 6 (2 ^ 53 + 1))) (Some (VInt 6 6 (2 ^ 53))) (f64 0 0) [] = Ret 0 true.
Proof. vm_compute. reflexivity. Qed.
Theorem C91_full_refuted : ~ C91_full.
Proof.
  intros F. destruct czero as [Z0 F0]. specialize (F exampleSprintf (2 ^ 53 + 1) (2 ^ 53) (f64 0 0) [] ltac:(split; [discriminate|reflexivity]) ltac:(split; [discriminate|reflexivity]) F0 C91_large_refuted).
  rewrite Z0 in F. change (Z.abs (2 ^ 53 + 1 - 2 ^ 53)) with 1 in F. lra.
Qed.

(** InDeltaSlice: the elements of actual are compared with the first ones of expected. *)
Theorem C91_slice_partial : forall sprintf expected actual es acts delta msgs, goodMessages msgs -> sliceOf expected es -> sliceOf actual acts ->
  ((List.length acts <= List.length es)%nat -> decides (InDeltaSlice sprintf expected actual delta msgs)
     (Forall2 (fun a e => InDelta sprintf a e delta msgs = Ret 0 true) acts (firstn (List.length acts) es))) /\
  ((List.length es < List.length acts)%nat ->
     (Forall2 (fun a e => InDelta sprintf a e delta msgs = Ret 0 true) (firstn (List.length es) acts) es /\ InDeltaSlice sprintf expected actual delta msgs = Pan 0) \/
     (~ Forall2 (fun a e => InDelta sprintf a e delta msgs = Ret 0 true) (firstn (List.length es) acts) es /\ InDeltaSlice sprintf expected actual delta msgs = Ret 1 false)).
Proof.
  intros sprintf e a es acts d msgs G E A. apply asSlice_spec in E, A. unfold InDeltaSlice. rewrite E, A. split; intros L.
  - apply (pairLoop_short (fun a e => InDelta sprintf a e d msgs)); auto. intros. now apply InDelta_two.
  - apply (pairLoop_long (fun a e => InDelta sprintf a e d msgs)); auto. intros. now apply InDelta_two.
Qed.
Theorem C91_not_slices : forall sprintf expected actual delta msgs, goodMessages msgs -> ~ (exists l, sliceOf expected l) \/ ~ (exists l, sliceOf actual l) ->
  InDeltaSlice sprintf expected actual delta msgs = Ret 1 false.
Proof.
  intros sprintf e a d msgs G H. unfold InDeltaSlice. rewrite Fail_good by auto.
  destruct H as [H|H]; apply asSlice_none in H; rewrite H; auto. now destruct (asSlice e).
Qed.
(** Slices of different lengths do not pass *)
Definition C91_slice_full : Prop := forall sprintf expected actual es acts delta msgs, sliceOf expected es -> sliceOf actual acts ->
  InDeltaSlice sprintf expected actual delta msgs = Ret 0 true -> List.length es = List.length acts.
Theorem C91_prefix_refuted : forall sprintf expected es delta msgs ty, sliceOf expected es -> InDeltaSlice sprintf expected (Some (VSlice ty None)) delta msgs = Ret 0 true.
Proof. intros sprintf e es d msgs ty E. apply asSlice_spec in E. unfold InDeltaSlice. rewrite E. reflexivity. Qed.
Theorem C91_slice_full_refuted : ~ C91_slice_full.
Proof.
  intros F. assert (E : sliceOf (Some (VSlice 60 (Some [None]))) [None]) by (eexists; repeat split; constructor).
  assert (A : sliceOf (Some (VSlice 60 None)) []) by (eexists; repeat split; constructor).
  specialize (F exampleSprintf _ _ _ _ (f64 0 0) [] E A (C91_prefix_refuted _ _ _ _ _ _ E)). discriminate.
Qed.

(** InDeltaMapValues: maps with as many keys, each key of expected in both, with values within delta. *)
Theorem C91_maps : forall sprintf keyEq keyAssignable expected actual te ta em am delta msgs, goodMessages msgs ->
  mapOf expected te em -> mapOf actual ta am -> differentKeys keyEq em -> differentKeys keyEq am -> keyAssignable te ta = true ->
  decides (InDeltaMapValues sprintf keyEq keyAssignable expected actual delta msgs)
    (List.length em = List.length am /\ forall k v, In (k, v) em ->
       exists ev av, mapsTo keyEq em k ev /\ mapsTo keyEq am k av /\ InDelta sprintf ev av delta msgs = Ret 0 true).
Proof.
  intros sprintf keq ka e a te ta em am d msgs G E A De Da K.
  assert (E' : asMap e = Some (te, em)) by (destruct E; reflexivity). assert (A' : asMap a = Some (ta, am)) by (destruct A; reflexivity).
  unfold InDeltaMapValues. rewrite E', A', Fail_good by auto. destruct (List.length em =? List.length am)%nat eqn:L; cbn [negb].
  - apply Nat.eqb_eq in L. destruct (mapLoop_spec sprintf keq ka te ta em am d msgs G De Da K (map fst em)) as [[H ->]|[H ->]]; [left|right]; split; auto.
    + split; auto. intros k v I. apply H. apply in_map_iff. exists (k, v). auto.
    + intros [_ H']. apply H. intros k I. apply in_map_iff in I. destruct I as ([k' v] & <- & I). eapply H'; eauto.
  - apply Nat.eqb_neq in L. right. split; auto. tauto.
Qed.
(** Keys of another type: it panics, unless the maps are empty or of different sizes; a key that is not equal to itself makes it fail. *)
Theorem C91_map_keys : forall sprintf keyEq keyAssignable expected actual te ta em am delta msgs, mapOf expected te em -> mapOf actual ta am ->
  keyAssignable te ta = false -> List.length em = List.length am ->
  InDeltaMapValues sprintf keyEq keyAssignable expected actual delta msgs = if (List.length em =? 0)%nat then Ret 0 true else Pan 0.
Proof.
  intros sprintf keq ka e a te ta em am d msgs E A K L.
  assert (E' : asMap e = Some (te, em)) by (destruct E; reflexivity). assert (A' : asMap a = Some (ta, am)) by (destruct A; reflexivity).
  unfold InDeltaMapValues. rewrite E', A', L, Nat.eqb_refl. cbn [negb]. destruct em as [|x em], am as [|y am]; try discriminate; auto. cbn. now rewrite K.
Qed.
Definition C91_map_full : Prop := forall sprintf keyEq keyAssignable m ty l delta msgs, goodMessages msgs -> mapOf m ty l -> keyAssignable ty ty = true ->
  (forall k v, In (k, v) l -> InDelta sprintf v v delta msgs = Ret 0 true) -> InDeltaMapValues sprintf keyEq keyAssignable m m delta msgs = Ret 0 true.
(** A map with the key NaN is not within delta of itself *)
Theorem C91_map_nan_refuted : forall sprintf keyEq keyAssignable ty k v l delta msgs, goodMessages msgs -> keyAssignable ty ty = true ->
  (forall k', keyEq k' k = false) ->
  InDeltaMapValues sprintf keyEq keyAssignable (Some (VMap ty (Some ((k, v) :: l)))) (Some (VMap ty (Some ((k, v) :: l)))) delta msgs = Ret 1 false.
Proof.
  intros sprintf keq ka ty k v l d msgs G K N. unfold InDeltaMapValues. cbn [asMap]. rewrite Nat.eqb_refl. cbn [negb map fst mapLoop]. rewrite K. cbn [negb].
  match goal with |- context [mapIndex keq ?m k] => assert (M : mapIndex keq m k = None) end.
  { unfold mapIndex. match goal with |- option_map _ ?f = _ => destruct f as [x|] eqn:F end; auto.
    apply find_some in F. destruct F as [_ F]. rewrite N in F. discriminate. }
  rewrite M. now apply Fail_good.
Qed.
Theorem C91_map_full_refuted : ~ C91_map_full.
Proof.
  intros F.
  pose proof (F exampleSprintf (fun _ _ => false) (fun _ _ => true) (Some (VMap 60 (Some [(Some (VInt 6 6 0), Some (VInt 6 6 0))]))) 60 [(Some (VInt 6 6 0), Some (VInt 6 6 0))] (f64 0 0) [] gm_none (map_some _ _) eq_refl) as H.
  rewrite C91_map_nan_refuted in H by (auto; constructor). enough (@Ret bool 1 false = Ret 0 true) by discriminate. apply H.
  intros k v [I|[]]. injection I as <- <-. vm_compute. reflexivity.
Qed.
Example C91_example :
  let f n := Some (VFloat 14 14 (f64 n 0)) in
  number (f 5) (f64 5 0) /\ finite (f64 5 0) = true /\ goodMessages [Some (VStr 24 (bs "m"))] /\
  InDelta exampleSprintf (f 5) (Some (VInt 2 2 7)) (f64 2 0) [] = Ret 0 true /\ InDelta exampleSprintf (f 5) (Some (VInt 2 2 8)) (f64 2 0) [] = Ret 1 false /\
  InDelta exampleSprintf (f 5) (Some (VInt 7 7 5)) (f64 2 0) [] = Ret 1 false /\
  InDelta exampleSprintf (Some (VFloat 14 14 (B754_infinity 53 1024 true))) (Some (VFloat 14 14 (B754_infinity 53 1024 true))) (f64 2 0) [] = Ret 0 true /\
  InDeltaSlice exampleSprintf (Some (VSlice 60 (Some [f 1; f 2]))) (Some (VSlice 60 (Some [f 2]))) (f64 1 0) [] = Ret 0 true /\
  InDeltaSlice exampleSprintf (Some (VSlice 60 (Some [f 1]))) (Some (VSlice 60 (Some [f 2; f 3]))) (f64 1 0) [] = Pan 0 /\
  InDeltaMapValues exampleSprintf (fun a b => exampleDeq (match a with Some v => v | None => VBytes None end) (match b with Some v => v | None => VBytes None end)) (fun _ _ => true)
    (Some (VMap 61 (Some [(Some (VInt 2 2 1), f 1); (Some (VInt 2 2 2), f 2)]))) (Some (VMap 61 (Some [(Some (VInt 2 2 2), f 2); (Some (VInt 2 2 1), f 2)]))) (f64 1 0) [] = Ret 0 true.
Proof.
  split; [constructor; cbn; auto|]. split; [reflexivity|]. split; [constructor|]. repeat split; vm_compute; reflexivity.
Qed.

(** * C92: InEpsilon *)
(** For finite numbers, the expected one not 0, whose difference is a float64: the relative error, rounded twice, is at most epsilon. *)
Theorem C92_rounded_partial : forall sprintf expected actual x y epsilon msgs, goodMessages msgs -> number expected x -> number actual y ->
  finite x = true -> finite y = true -> finite epsilon = true -> real x <> 0%R -> (Rabs (nearest (real x - real y)) < bpow radix2 1024)%R ->
  decides (InEpsilon sprintf expected actual epsilon msgs) (nearest (Rabs (nearest (real x - real y)) / Rabs (real x)) <= real epsilon)%R.
Proof. intros. now apply InEpsilon_finite. Qed.
(** 0, and what is not a number, is not within anything. *)
Theorem C92_zero : forall sprintf expected actual epsilon msgs, goodMessages msgs ->
  (~ exists x, number expected x) \/ (exists x, number expected x /\ finite x = true /\ real x = 0%R) \/ ~ (exists y, number actual y) ->
  InEpsilon sprintf expected actual epsilon msgs = Ret 1 false.
Proof.
  intros sprintf e a d msgs G H. unfold InEpsilon, calcRelativeError. rewrite Fail_good by auto. destruct H as [H|[(x & N & F & Z)|H]].
  - apply toFloat_none in H. now rewrite H.
  - apply toFloat_spec in N. rewrite N. apply eq64_zero in Z; auto. now rewrite Z.
  - apply toFloat_none in H. rewrite H. destruct (toFloat e) as [x|]; auto. now destruct (eq64 x (f64 0 0)).
Qed.
(** NaN passes, as the expected number and as the actual one, and as epsilon *)
Definition C92_full : Prop := forall sprintf expected actual x y epsilon msgs, number expected x -> number actual y ->
  InEpsilon sprintf expected actual epsilon msgs = Ret 0 true -> isNaN x = false /\ isNaN y = false /\ isNaN epsilon = false.
Theorem C92_nan_refuted : forall sprintf expected actual x y epsilon msgs, number expected x -> number actual y -> eq64 x (f64 0 0) = false ->
  isNaN x = true \/ isNaN y = true \/ isNaN epsilon = true -> InEpsilon sprintf expected actual epsilon msgs = Ret 0 true.
Proof.
  intros sprintf e a x y d msgs Nx Ny Z H. apply toFloat_spec in Nx, Ny. unfold InEpsilon, calcRelativeError. rewrite Nx, Z, Ny.
  destruct H as [H|[H|H]].
  - destruct x; try discriminate. assert (N : isNaN (b64_div mode_NE (b64_abs (b64_minus mode_NE (B754_nan 53 1024 s pl e0) y)) (b64_abs (B754_nan 53 1024 s pl e0))) = true).
    { destruct y; cbn; reflexivity. }
    now rewrite (proj1 (lt64_nan d _ N)).
  - destruct y; try discriminate.
    assert (N : isNaN (b64_div mode_NE (b64_abs (b64_minus mode_NE x (B754_nan 53 1024 s pl e0))) (b64_abs x)) = true).
    { destruct x; cbn; reflexivity. }
    now rewrite (proj1 (lt64_nan d _ N)).
  - now rewrite (proj2 (lt64_nan _ d H)).
Qed.
Definition aNaN : binary64 := b64_div mode_NE (f64 0 0) (f64 0 0).
Theorem C92_full_refuted : ~ C92_full.
Proof.
  intros F. assert (N : number (Some (VFloat 14 14 aNaN)) aNaN) by (constructor; cbn; auto).
  assert (E : InEpsilon exampleSprintf (Some (VFloat 14 14 aNaN)) (Some (VFloat 14 14 aNaN)) (f64 0 0) [] = Ret 0 true) by (vm_compute; reflexivity).
  destruct (F _ _ _ _ _ _ _ N N E) as [H _]. vm_compute in H. discriminate.
Qed.
(** The largest numbers: the relative error of x and - x is 2, but their difference is no float64 *)
Theorem C92_overflow_refuted : forall big, big = f64 (2 ^ 53 - 1) 971 ->
  InEpsilon exampleSprintf (Some (VFloat 14 14 big)) (Some (VFloat 14 14 (b64_opp big))) (f64 3 0) [] = Ret 1 false /\
  InEpsilon exampleSprintf (Some (VFloat 14 14 (f64 5 0))) (Some (VFloat 14 14 (f64 (-5) 0))) (f64 3 0) [] = Ret 0 true.
Proof. intros big ->. split; vm_compute; reflexivity. Qed.
(** InEpsilonSlice: the elements of actual, as the expected numbers, with the first elements of expected; a failure has no message. *)
Theorem C92_slice_partial : forall sprintf expected actual es acts epsilon msgs, sliceOf expected es -> sliceOf actual acts ->
  ((List.length acts <= List.length es)%nat -> decides (InEpsilonSlice sprintf expected actual epsilon msgs)
     (Forall2 (fun a e => InEpsilon sprintf a e epsilon [] = Ret 0 true) acts (firstn (List.length acts) es))) /\
  ((List.length es < List.length acts)%nat ->
     (Forall2 (fun a e => InEpsilon sprintf a e epsilon [] = Ret 0 true) (firstn (List.length es) acts) es /\ InEpsilonSlice sprintf expected actual epsilon msgs = Pan 0) \/
     (~ Forall2 (fun a e => InEpsilon sprintf a e epsilon [] = Ret 0 true) (firstn (List.length es) acts) es /\ InEpsilonSlice sprintf expected actual epsilon msgs = Ret 1 false)).
Proof.
  intros sprintf e a es acts d msgs E A. apply asSlice_spec in E, A. unfold InEpsilonSlice. rewrite E, A. split; intros L.
  - apply (pairLoop_short (fun a e => InEpsilon sprintf a e d [])); auto. intros. apply InEpsilon_two. constructor.
  - apply (pairLoop_long (fun a e => InEpsilon sprintf a e d [])); auto. intros. apply InEpsilon_two. constructor.
Qed.
Theorem C92_not_slices : forall sprintf expected actual epsilon msgs, goodMessages msgs -> ~ (exists l, sliceOf expected l) \/ ~ (exists l, sliceOf actual l) ->
  InEpsilonSlice sprintf expected actual epsilon msgs = Ret 1 false.
Proof.
  intros sprintf e a d msgs G H. unfold InEpsilonSlice. rewrite Fail_good by auto.
  destruct H as [H|H]; apply asSlice_none in H; rewrite H; auto. now destruct (asSlice e).
Qed.
(** InEpsilonSlice of slices of one element is InEpsilon of the elements *)
Definition C92_slice_full : Prop := forall sprintf ty e a epsilon msgs, goodMessages msgs ->
  InEpsilonSlice sprintf (Some (VSlice ty (Some [e]))) (Some (VSlice ty (Some [a]))) epsilon msgs = InEpsilon sprintf e a epsilon msgs.
(** 2 is not within 0.75 of 1, but 1 is of 2 *)
Theorem C92_swapped_refuted : let f n := Some (VFloat 14 14 (f64 n 0)) in
  InEpsilonSlice exampleSprintf (Some (VSlice 60 (Some [f 1]))) (Some (VSlice 60 (Some [f 2]))) (f64 3 (-2)) [] = Ret 0 true /\
  InEpsilon exampleSprintf (f 1) (f 2) (f64 3 (-2)) [] = Ret 1 false.
Proof. split; vm_compute; reflexivity. Qed.
Theorem C92_slice_full_refuted : ~ C92_slice_full.
Proof. intros F. destruct C92_swapped_refuted as [A B]. rewrite F in A by constructor. congruence. Qed.
Example C92_example :
  let f n := Some (VFloat 14 14 (f64 n 0)) in
  finite (f64 3 (-2)) = true /\ (real (f64 4 0) <> 0)%R /\ (Rabs (nearest (real (f64 4 0) - real (f64 3 0))) < bpow radix2 1024)%R /\
  InEpsilon exampleSprintf (f 4) (f 3) (f64 1 (-2)) [] = Ret 0 true /\ InEpsilon exampleSprintf (f 4) (f 2) (f64 1 (-2)) [] = Ret 1 false /\
  InEpsilon exampleSprintf (f 0) (f 0) (f64 1 0) [] = Ret 1 false.
Proof.
  destruct (f64_small 4) as [R4 _]; [discriminate|]. destruct (f64_small 3) as [R3 _]; [discriminate|].
  split; [reflexivity|]. split; [rewrite R4; lra|]. split.
  { rewrite R4, R3, <- minus_IZR, nearest_fmt by (apply int_fmt; discriminate). rewrite <- abs_IZR. change (IZR (Z.abs (4 - 3))) with (bpow radix2 0). now apply bpow_lt. }
  repeat split; vm_compute; reflexivity.
Qed.

Print Assumptions C91_rounded.
Print Assumptions C91_bounds_partial.
Print Assumptions C91_integers.
Print Assumptions C91_not_numbers.
Print Assumptions C91_infinities.
Print Assumptions C91_nan_delta_refuted.
Print Assumptions C91_large_refuted.
Print Assumptions C91_full_refuted.
Print Assumptions C91_slice_partial.
Print Assumptions C91_not_slices.
Print Assumptions C91_prefix_refuted.
Print Assumptions C91_slice_full_refuted.
Print Assumptions C91_maps.
Print Assumptions C91_map_keys.
Print Assumptions C91_map_nan_refuted.
Print Assumptions C91_map_full_refuted.
Print Assumptions C92_rounded_partial.
Print Assumptions C92_zero.
Print Assumptions C92_nan_refuted.
Print Assumptions C92_full_refuted.
Print Assumptions C92_overflow_refuted.
Print Assumptions C92_slice_partial.
Print Assumptions C92_not_slices.
Print Assumptions C92_swapped_refuted.
Print Assumptions C92_slice_full_refuted.
