(** Property C64: the similarity ratios of the difference library. *)
From Coq Require Import Reals Lra Permutation.
From Verif Require Import Base DiffModel DiffSpec DiffProofs DiffBlockProofs DiffCodeProofs DiffTextProofs JsonFloatModel DiffRatioModel DiffRatioSpec DiffRatioProofs.
From Flocq Require Import Core IEEE754.Binary IEEE754.Bits.
Open Scope Z_scope.
Open Scope list_scope.

(** * C64: Ratio, QuickRatio, RealQuickRatio *)

(** Whatever was called before: the quick ratios are upper bounds, and all are in [0, 1] *)
Theorem C64_bounds : forall a b autoJunk isJunk h, let a' := fst (rcurrent a b h) in let b' := snd (rcurrent a b h) in
  lenZ a' + lenZ b' < 2 ^ 63 -> exists r r' x,
  rperforms (newR (NewMatcherWithJunk a b autoJunk isJunk)) h = Some r /\ Ratio r = Some (r', x) /\
  le64 (f64 0 0) x = true /\ le64 x (snd (QuickRatio r)) = true /\ le64 (snd (QuickRatio r)) (RealQuickRatio r) = true /\
  le64 (RealQuickRatio r) (f64 1 0) = true.
Proof.
  intros a b aj ij h a' b' L. destruct (rhistory a b aj ij h) as (r & E & W & Ea & Eb). fold a' in Ea. fold b' in Eb.
  destruct (ratio_is r W) as (r' & m' & bl & c & R & G & P & C1 & C2). destruct (quick_is r W) as (d & D & Q). rewrite Ea, Eb in *.
  pose proof (subseq_len _ _ C1). pose proof (subseq_len _ _ C2). pose proof (shared_le _ _ _ D) as [D1 D2]. pose proof (lenZ_nonneg _ c). pose proof (lenZ_nonneg _ d).
  exists r, r'. eexists. split; [exact E|]. split; [exact R|]. unfold RealQuickRatio. rewrite Ea, Eb, Q.
  split; [apply ratio_range; lia|]. split; [|split].
  - apply ratio_mono; try lia. split; [lia|]. apply occ_le_len. intro s. rewrite (D s). pose proof (subseq_occ _ _ s C1). pose proof (subseq_occ _ _ s C2). lia.
  - apply ratio_mono; lia.
  - apply ratio_range; lia.
Qed.
(** What they are, up to one rounding: for Ratio twice the number of matched lines by the number of lines, for QuickRatio the same with
    the lines in common regardless of order *)
Theorem C64_value : forall a b autoJunk isJunk h, let a' := fst (rcurrent a b h) in let b' := snd (rcurrent a b h) in
  lenZ a' + lenZ b' <= 2 ^ 53 -> exists r r' x m' bl c,
  rperforms (newR (NewMatcherWithJunk a b autoJunk isJunk)) h = Some r /\
  Ratio r = Some (r', x) /\ GetMatchingBlocks (plain r) = Some (m', bl) /\ measures x (lenZ (pairs bl)) (lenZ a') (lenZ b') /\
  shared a' b' c /\ measures (snd (QuickRatio r)) (lenZ c) (lenZ a') (lenZ b') /\
  measures (RealQuickRatio r) (Z.min (lenZ a') (lenZ b')) (lenZ a') (lenZ b').
Proof.
  intros a b aj ij h a' b' L. destruct (rhistory a b aj ij h) as (r & E & W & Ea & Eb). fold a' in Ea. fold b' in Eb.
  destruct (ratio_is r W) as (r' & m' & bl & c & R & G & P & C1 & C2). destruct (quick_is r W) as (d & D & Q). rewrite Ea, Eb in *.
  pose proof (subseq_len _ _ C1). pose proof (subseq_len _ _ C2). pose proof (shared_le _ _ _ D) as [D1 D2]. pose proof (lenZ_nonneg _ c). pose proof (lenZ_nonneg _ d).
  exists r, r'. eexists. exists m', bl, d. split; [exact E|]. split; [exact R|]. split; [exact G|]. rewrite P. split; [apply ratio_measures; lia|].
  split; [exact D|]. rewrite Q. split; [apply ratio_measures; lia|]. unfold RealQuickRatio. rewrite Ea, Eb. apply ratio_measures; lia.
Qed.
(** 1 means: the same lines; the same lines in any order; the same number of lines *)
Theorem C64_one : forall a b autoJunk isJunk h, let a' := fst (rcurrent a b h) in let b' := snd (rcurrent a b h) in
  lenZ a' + lenZ b' < 2 ^ 53 -> exists r r' x,
  rperforms (newR (NewMatcherWithJunk a b autoJunk isJunk)) h = Some r /\ Ratio r = Some (r', x) /\
  (value x = 1%R <-> a' = b') /\ (value (snd (QuickRatio r)) = 1%R <-> Permutation a' b') /\ (value (RealQuickRatio r) = 1%R <-> lenZ a' = lenZ b').
Proof.
  intros a b aj ij h a' b' L. destruct (rhistory a b aj ij h) as (r & E & W & Ea & Eb). fold a' in Ea. fold b' in Eb.
  destruct (ratio_is r W) as (r' & m' & bl & c & R & G & P & C1 & C2). destruct (quick_is r W) as (d & D & Q). rewrite Ea, Eb in *.
  pose proof (subseq_len _ _ C1). pose proof (subseq_len _ _ C2). pose proof (shared_le _ _ _ D) as [D1 D2]. pose proof (lenZ_nonneg _ c). pose proof (lenZ_nonneg _ d).
  exists r, r'. eexists. split; [exact E|]. split; [exact R|]. rewrite Q. unfold RealQuickRatio. rewrite Ea, Eb. rewrite !ratio_one by lia.
  split; [|split].
  - split; intro K.
    + rewrite <- (subseq_all _ _ C1), <- (subseq_all _ _ C2) by lia. reflexivity.
    + destruct W as [W _]. destruct (getBlocks_ok (plain r) W) as (m2 & bl2 & G2 & B2 & _). rewrite G in G2. injection G2 as _ <-.
      unfold blocksOf in B2. rewrite Ea, Eb, <- K in B2. rewrite computeBlocks_same in B2. injection B2 as <-. rewrite <- P, <- K. clear.
      pose proof (lenZ_nonneg _ a') as N. destruct (Z.ltb_spec 0 (lenZ a')) as [Q|Q]; (rewrite pairs_len; [unfold sizes; cbn [app fold_right mSize]; lia|]).
      * constructor; [cbn [mSize]; lia|constructor; [cbn; lia|constructor]].
      * constructor; [cbn; lia|constructor].
  - split; intro K.
    + apply (shared_perm a' b' d D); lia.
    + pose proof (perm_shared _ _ _ D K). pose proof (perm_lenZ _ _ K). lia.
  - lia.
Qed.
(** 0: no line in common *)
Theorem C64_zero : forall a b autoJunk isJunk h, let a' := fst (rcurrent a b h) in let b' := snd (rcurrent a b h) in
  0 < lenZ a' + lenZ b' < 2 ^ 53 -> exists r r' x,
  rperforms (newR (NewMatcherWithJunk a b autoJunk isJunk)) h = Some r /\ Ratio r = Some (r', x) /\
  ((forall s, In s a' -> ~ In s b') -> value x = 0%R) /\
  (value (snd (QuickRatio r)) = 0%R <-> forall s, In s a' -> ~ In s b') /\
  (value (RealQuickRatio r) = 0%R <-> a' = [] \/ b' = []).
Proof.
  intros a b aj ij h a' b' L. destruct (rhistory a b aj ij h) as (r & E & W & Ea & Eb). fold a' in Ea. fold b' in Eb.
  destruct (ratio_is r W) as (r' & m' & bl & c & R & G & P & C1 & C2). destruct (quick_is r W) as (d & D & Q). rewrite Ea, Eb in *.
  pose proof (subseq_len _ _ C1). pose proof (subseq_len _ _ C2). pose proof (shared_le _ _ _ D) as [D1 D2]. pose proof (lenZ_nonneg _ c). pose proof (lenZ_nonneg _ d).
  exists r, r'. eexists. split; [exact E|]. split; [exact R|]. rewrite Q. unfold RealQuickRatio. rewrite Ea, Eb. rewrite !ratio_zero by lia.
  split; [|split].
  - intro N. apply (shared_none _ _ _ D) in N.
    assert (lenZ c <= lenZ d); [|lia]. apply occ_le_len. intro s. rewrite (D s). pose proof (subseq_occ _ _ s C1). pose proof (subseq_occ _ _ s C2). lia.
  - apply (shared_none _ _ _ D).
  - assert (Z : forall l : list bytes, lenZ l = 0 <-> l = []).
    { intros [|y l]; [split; reflexivity|]. rewrite lenZ_cons. pose proof (lenZ_nonneg _ l). split; [lia|discriminate]. }
    rewrite <- !Z. pose proof (lenZ_nonneg _ a'). pose proof (lenZ_nonneg _ b'). lia.
Qed.

(** abxcd against abcd, set after other lines were counted: 8/9 for all three; dcba: in another order *)
Definition ex_abxcd : list bytes := map bs ["a"%string; "b"%string; "x"%string; "c"%string; "d"%string].
Definition ex_abcd : list bytes := map bs ["a"%string; "b"%string; "c"%string; "d"%string].
Definition compared (x : option (rmatcher * binary64)) (y : binary64) : option comparison := let? (_, x) := x in b64_compare x y.
Example C64_example : exists r,
  rcurrent ex_abcd ex_abxcd [RQuickRatio; RRatio; RCall (CSetSeqs ex_abxcd ex_abcd); RQuickRatio; RCall CCodes] = (ex_abxcd, ex_abcd) /\
  rperforms (newR (NewMatcher ex_abcd ex_abxcd)) [RQuickRatio; RRatio; RCall (CSetSeqs ex_abxcd ex_abcd); RQuickRatio; RCall CCodes] = Some r /\
  compared (Ratio r) (calculateRatio 4 9) = Some Eq /\ b64_compare (snd (QuickRatio r)) (calculateRatio 4 9) = Some Eq /\
  compared (Ratio r) (f64 1 0) = Some Lt /\ lenZ ex_abxcd + lenZ ex_abcd = 9.
Proof. eexists. split; [reflexivity|]. split; [vm_compute; reflexivity|]. repeat split; vm_compute; reflexivity. Qed.
Example C64_order_example : let r := newR (NewMatcher ex_abcd (rev ex_abcd)) in
  compared (Ratio r) (f64 1 (-2)) = Some Eq /\ b64_compare (snd (QuickRatio r)) (f64 1 0) = Some Eq /\ Permutation ex_abcd (rev ex_abcd).
Proof. cbv zeta. split; [vm_compute; reflexivity|]. split; [vm_compute; reflexivity|apply Permutation_rev]. Qed.
(** Ratio is also 0 if the lines in common are only popular ones *)
Example C64_popular_example : compared (Ratio (newR (NewMatcher [bs "y"; bs "x"; bs "x"] (repeat (bs "x") 200)))) (f64 0 0) = Some Eq.
Proof. vm_compute. reflexivity. Qed.

Print Assumptions C64_bounds.
Print Assumptions C64_value.
Print Assumptions C64_one.
Print Assumptions C64_zero.
