(** C111: go-spew gets at values that package reflect protects *)
From Verif Require Import Base BypassModel BypassSpec.
From Coq Require Import Lia.
Open Scope Z_scope.

Lemma land_bit x n : 0 <= n -> (Z.land x (2 ^ n) =? 0) = negb (Z.testbit x n).
Proof.
  intros N. destruct (Z.testbit x n) eqn:B; cbn [negb].
  - apply Z.eqb_neq. intros E. assert (X : Z.testbit (Z.land x (2 ^ n)) n = false) by (rewrite E; apply Z.bits_0). rewrite Z.land_spec, B, Z.pow2_bits_true in X by exact N. discriminate.
  - apply Z.eqb_eq. apply Z.bits_inj'. intros m M. rewrite Z.land_spec, Z.bits_0, Z.pow2_bits_eqb by exact N. destruct (n =? m) eqn:E; [apply Z.eqb_eq in E; subst m; rewrite B; reflexivity|apply andb_false_r].
Qed.
Lemma land_two x : (Z.land x 96 =? 0) = negb (Z.testbit x 5 || Z.testbit x 6).
Proof.
  change 96 with (Z.lor (2 ^ 5) (2 ^ 6)). rewrite Z.land_lor_distr_r. rewrite negb_orb, <- !land_bit by lia.
  destruct (Z.land x (2 ^ 5) =? 0) eqn:A, (Z.land x (2 ^ 6) =? 0) eqn:B; cbn [andb]; rewrite ?Z.eqb_eq, ?Z.eqb_neq in *.
  - rewrite A, B. reflexivity.
  - intros E. apply Z.lor_eq_0_iff in E. tauto.
  - intros E. apply Z.lor_eq_0_iff in E. tauto.
  - intros E. apply Z.lor_eq_0_iff in E. tauto.
Qed.

(** From the size of a Value and the flags of an int, init finds out the layout, unless there is one read-only flag above the kind and an int is not indirect *)
Theorem C111_init L W mem vv indirect : 0 < W -> mem (flagAddress L W vv) = intFlags (flagsAt L) indirect ->
  (describes (init W (sizeOf L W) mem vv) L W <-> ~ (flagsAt L = Mid /\ indirect = false)).
Proof.
  intros HW F. unfold init, sizeOf. destruct L as [sc f]. cbn [scalarWord flagsAt] in *. unfold flagAddress in F. cbn [scalarWord] in F.
  assert (E1 : (4 * W =? W * 4) = true) by (apply Z.eqb_eq; lia). assert (E2 : (3 * W =? W * 4) = false) by (apply Z.eqb_neq; lia).
  assert (R : forall x, (Z.land x 1 =? 0) = negb (Z.testbit x 0)) by (intros x; apply (land_bit x 0); lia).
  assert (R5 : forall x, (Z.land x 32 =? 0) = negb (Z.testbit x 5)) by (intros x; apply (land_bit x 5); lia).
  assert (NM : ~ (forall x, (Z.land x 96 =? 0) = negb (Z.testbit x 5))) by (intros X; specialize (X 64); discriminate).
  assert (M3 : W * 3 = 3 * W) by lia. assert (M2 : W * 2 = 2 * W) by lia. unfold describes. cbn [scalarWord flagsAt].
  destruct sc; rewrite ?E1, ?E2; cbn [initial offsetPtr offsetScalar offsetFlag flagKindShift flagRO flagIndir]; rewrite ?M3, ?M2, F; clear F E1 E2 M3 M2; remember (3 * W) as w3; remember (2 * W) as w2;
    destruct f, indirect; cbn; (split; [intros (_ & _ & _ & X & _) [A B]; (discriminate A || discriminate B || discriminate X)|
      intros N; try (exfalso; apply N; split; reflexivity); repeat split; first [lia|exact R|exact R5|exact land_two]]).
Qed.
(** Uintptr, Chan, Func, Map, Ptr and UnsafePointer *)
Lemma referenceKind_spec k b : (b = true <-> ~ In k [12; 18; 19; 21; 22; 26]) -> b = negb (referenceKind k).
Proof.
  intros H. assert (R : referenceKind k = true <-> In k [12; 18; 19; 21; 22; 26]).
  { unfold referenceKind. rewrite !orb_true_iff, !Z.eqb_eq. cbn [In]. intuition. }
  destruct (referenceKind k), b; cbn [negb]; try reflexivity; exfalso; [apply (proj1 H eq_refl), R; reflexivity|]. apply (Bool.diff_false_true), H. intros I. apply R in I. discriminate.
Qed.
Lemma pointerLike_kind t : pointerLike t <-> In (kindOf t) [12; 18; 19; 21; 22; 26].
Proof. destruct t as [t|k n]; cbn [pointerLike kindOf]; [|reflexivity]. cbn [In]. intuition. Qed.
(** The value that comes out is of the same type and in the same place, or a copy of a word that was not a place; nothing is forbidden any more.
    The last hypothesis: with a word for scalars, the kinds that are not kept there are the ones bypass.go lists *)
Theorem C111_same L inScalar W d mem p v : 0 < W -> 0 < p -> describes d L W -> sees L inScalar W mem p v ->
  (scalarWord L = true -> rIndir v = false -> (inScalar (rTy v) = true <-> ~ pointerLike (rTy v))) ->
  exists w, unsafeReflectValue d mem p (rTy v) = Some w /\ same mem v w /\ rAddr w = true /\ rRO w = false.
Proof.
  intros HW Hp (Dp & Df & Ds & Di & _) (I & _ & _ & Wd & NZ & _) A. unfold unsafeReflectValue. rewrite Dp, Df, Ds, Di. fold (flagAddress L W p). rewrite land_bit by (destruct (flagsAt L); cbn; lia). rewrite <- I, negb_involutive.
  unfold same. destruct (rIndir v) eqn:Iv.
  - rewrite andb_false_r in Wd. cbn [andb] in Wd. cbn [elems obind Elem NewAt rTy rWord rIndir rRO]. replace (p + W =? 0) with false by (symmetry; apply Z.eqb_neq; lia). cbn [obind Elem rTy rWord rIndir rRO]. rewrite <- Wd.
    replace (rWord v =? 0) with false by (symmetry; apply Z.eqb_neq; auto). cbn [obind]. eexists. repeat split.
  - cbn [negb] in Wd. rewrite andb_true_r in Wd. destruct (scalarWord L); cbn [andb] in Wd.
    + specialize (A eq_refl eq_refl). rewrite pointerLike_kind in A. rewrite (referenceKind_spec _ _ A) in Wd. replace (2 * W =? 0) with false by (symmetry; apply Z.eqb_neq; lia). cbn [negb andb].
      destruct (referenceKind (kindOf (rTy v))); cbn [negb] in *; cbn [elems obind Elem NewAt rTy rWord rIndir rRO];
        match goal with |- context[?x =? 0] => replace (x =? 0) with false by (symmetry; apply Z.eqb_neq; lia) end; cbn [obind]; eexists; (repeat split; symmetry; exact Wd).
    + cbn [Z.eqb negb andb elems obind Elem NewAt rTy rWord rIndir rRO]. replace (p + W =? 0) with false by (symmetry; apply Z.eqb_neq; lia). cbn [obind]. eexists. repeat split. symmetry. exact Wd.
Qed.
(** [x] is a pointer to [v], or to a copy of its word *)
Definition pointsAt (mem : Z -> Z) (v x : rval) : Prop :=
  rTy x = TPtr (rTy v) /\ rIndir x = false /\ if rIndir v then rWord x = rWord v else mem (rWord x) = rWord v.
(** The methods are looked for in the value itself or in a pointer to it (to a copy, if the value is not in memory), and calling them is allowed.  The value
    itself is taken only if pointer methods are disabled and the value is neither addressable nor protected; everything else gets the methods of the pointer *)
Theorem C111_methods L inScalar W d mem p v disabled : 0 < W -> 0 < p -> describes d L W -> sees L inScalar W mem p v ->
  (scalarWord L = true -> rIndir v = false -> (inScalar (rTy v) = true <-> ~ pointerLike (rTy v))) ->
  exists x, lookedUp false disabled d mem p v = Some x /\ rRO x = false /\
    if disabled && negb (rAddr v) && negb (rRO v) then x = v else pointsAt mem v x.
Proof.
  intros HW Hp D S A. destruct (C111_same L inScalar W d mem p v HW Hp D S A) as (w & E & (T & I & P) & Aw & Rw). destruct S as (_ & _ & _ & _ & _ & AI). unfold lookedUp, pointsAt.
  destruct (rRO v) eqn:R.
  - rewrite E. cbn [obind]. rewrite Aw. cbn [negb]. rewrite !andb_false_r. cbn [obind]. rewrite Aw. eexists. split; [reflexivity|]. cbn. rewrite T. auto.
  - cbn [obind negb]. destruct (rAddr v) eqn:Av; cbn [negb].
    + rewrite !andb_false_r. cbn [obind andb]. rewrite Av. eexists. split; [reflexivity|]. rewrite (AI eq_refl). cbn. auto.
    + rewrite !andb_true_r. destruct disabled; cbn [negb andb obind].
      * rewrite Av. eauto.
      * rewrite E. cbn [obind]. rewrite Aw. eexists. split; [reflexivity|]. cbn. rewrite T. auto.
Qed.
(** Without package unsafe nothing is looked for in protected values, and the methods of pointers only for values that are addressable *)
Theorem C111_safe L inScalar W d mem p v disabled : sees L inScalar W mem p v ->
  (rRO v = true -> lookedUp true disabled d mem p v = None) /\
  (rRO v = false -> exists x, lookedUp true disabled d mem p v = Some x /\ rRO x = false /\ if rAddr v then pointsAt mem v x else x = v).
Proof.
  intros (_ & _ & _ & _ & _ & AI). unfold lookedUp, pointsAt. split; intros R; rewrite R; [reflexivity|]. cbn [obind negb]. rewrite andb_false_r. cbn [andb obind].
  destruct (rAddr v) eqn:Av; (eexists; split; [reflexivity|]); [rewrite (AI eq_refl)|]; cbn; auto.
Qed.

(** ** Examples, and what does not hold *)
(** A Value of three words at 100, in the newest layout; its flags *)
Definition three (word flag : Z) (a : Z) : Z := if a =? 108 then word else if a =? 116 then flag else if a =? 200 then 7 else 0.
Definition newest : layout := {| scalarWord := false; flagsAt := New |}.
Definition found (L : layout) (indirect : bool) : vars := init 8 (sizeOf L 8) (fun _ => intFlags (flagsAt L) indirect) 100.
Definition never (t : ty) : bool := false.
Definition tInt := TKind 2 0.
Definition unexported : rval := {| rTy := tInt; rWord := 200; rIndir := true; rAddr := false; rRO := true |}.
Example C111_init_example :
  found newest true = {| offsetPtr := 8; offsetScalar := 0; offsetFlag := 16; flagKindShift := 0; flagRO := 96; flagIndir := 128 |} /\
  found {| scalarWord := true; flagsAt := Old |} false = {| offsetPtr := 8; offsetScalar := 16; offsetFlag := 24; flagKindShift := 4; flagRO := 1; flagIndir := 2 |} /\
  found {| scalarWord := false; flagsAt := Mid |} true = {| offsetPtr := 8; offsetScalar := 0; offsetFlag := 16; flagKindShift := 0; flagRO := 32; flagIndir := 64 |}.
Proof. repeat split. Qed.
Lemma found_newest : describes (found newest true) newest 8.
Proof. apply (proj2 (C111_init newest 8 (fun _ => intFlags New true) 100 true ltac:(lia) eq_refl)). intros [A _]. discriminate. Qed.
(** An unexported field that is an int: 2 for its kind, 32 for read-only, 128 for indirect *)
Lemma unexported_sees : sees newest never 8 (three 200 162) 100 unexported.
Proof. repeat split; try reflexivity; discriminate. Qed.
Example C111_example :
  unsafeReflectValue (found newest true) (three 200 162) 100 tInt = Some {| rTy := tInt; rWord := 200; rIndir := true; rAddr := true; rRO := false |} /\
  lookedUp false false (found newest true) (three 200 162) 100 unexported = Some {| rTy := TPtr tInt; rWord := 200; rIndir := false; rAddr := false; rRO := false |} /\
  lookedUp true false (found newest true) (three 200 162) 100 unexported = None /\
  (exists x, lookedUp false true (found newest true) (three 200 130) 100 {| rTy := tInt; rWord := 200; rIndir := true; rAddr := false; rRO := false |} = Some x /\ rTy x = tInt).
Proof. repeat split. eexists. split; reflexivity. Qed.
(** For every layout the values are found, and pointer methods are left alone if they are disabled *)
Definition C111_full : Prop :=
  (forall L W mem vv indirect, 0 < W -> mem (flagAddress L W vv) = intFlags (flagsAt L) indirect -> describes (init W (sizeOf L W) mem vv) L W) /\
  (forall L inScalar W d mem p v, 0 < W -> 0 < p -> describes d L W -> sees L inScalar W mem p v -> exists w, unsafeReflectValue d mem p (rTy v) = Some w /\ same mem v w) /\
  (forall L inScalar W d mem p v, 0 < W -> 0 < p -> describes d L W -> sees L inScalar W mem p v -> rAddr v = false -> exists x, lookedUp false true d mem p v = Some x /\ rTy x = rTy v).
(** The method of a pointer to an unexported field is called although pointer methods are disabled; the pointer is to the field itself *)
Theorem C111_disabled_refuted : rAddr unexported = false /\
  lookedUp false true (found newest true) (three 200 162) 100 unexported = Some {| rTy := TPtr tInt; rWord := 200; rIndir := false; rAddr := false; rRO := false |}.
Proof. split; reflexivity. Qed.
(** With a word for scalars: if package reflect keeps the words without pointers there, as its comments say, a uintptr is read from the wrong word *)
Definition four (word scalar flag : Z) (a : Z) : Z := if a =? 108 then word else if a =? 116 then scalar else if a =? 124 then flag else 0.
Definition scalars : layout := {| scalarWord := true; flagsAt := Old |}.
Definition tUintptr := TKind 12 0.
Theorem C111_uintptr_refuted : exists v w, sees scalars (fun _ => true) 8 (four 0 5 192) 100 v /\ rWord v = 5 /\ rTy v = tUintptr /\
  unsafeReflectValue (found scalars false) (four 0 5 192) 100 tUintptr = Some w /\ four 0 5 192 (rWord w) = 0.
Proof.
  exists {| rTy := tUintptr; rWord := 5; rIndir := false; rAddr := false; rRO := false |}. eexists. split; [|split; [reflexivity|split; [reflexivity|split; [vm_compute; reflexivity|reflexivity]]]].
  repeat split; discriminate.
Qed.
(** ... while an int is read from the word for scalars and a map from the other *)
Definition keptThere (t : ty) : bool := negb (existsb (Z.eqb (kindOf t)) [12; 18; 19; 21; 22; 26]).
Example C111_scalar_example :
  (forall v, keptThere (rTy v) = true <-> ~ pointerLike (rTy v)) /\
  sees scalars keptThere 8 (four 0 5 32) 100 {| rTy := tInt; rWord := 5; rIndir := false; rAddr := false; rRO := false |} /\
  sees scalars keptThere 8 (four 77 0 336) 100 {| rTy := TKind 21 0; rWord := 77; rIndir := false; rAddr := false; rRO := false |} /\
  (exists w, unsafeReflectValue (found scalars false) (four 0 5 32) 100 tInt = Some w /\ four 0 5 32 (rWord w) = 5) /\
  (exists w, unsafeReflectValue (found scalars false) (four 77 0 336) 100 (TKind 21 0) = Some w /\ four 77 0 336 (rWord w) = 77).
Proof.
  split; [|split; [|split; [|split; eexists; (split; [vm_compute; reflexivity|reflexivity])]]].
  - intros v. rewrite pointerLike_kind. unfold keptThere. rewrite negb_true_iff. cbn [existsb In]. rewrite !orb_false_iff, !Z.eqb_neq. intuition.
  - repeat split; try reflexivity; discriminate.
  - repeat split; try reflexivity; discriminate.
Qed.
(** One read-only flag, and ints that are not indirect: the flags are taken for the newer ones *)
Theorem C111_mid_refuted : flagIndir (found {| scalarWord := true; flagsAt := Mid |} false) = 128.
Proof. reflexivity. Qed.
Theorem C111_full_refuted : ~ C111_full.
Proof.
  intros (_ & _ & F). destruct (F newest never 8 (found newest true) (three 200 162) 100 unexported ltac:(lia) ltac:(lia) found_newest unexported_sees eq_refl) as (x & E & T).
  rewrite (proj2 C111_disabled_refuted) in E. injection E as <-. discriminate.
Qed.
Print Assumptions C111_init.
Print Assumptions C111_same.
Print Assumptions C111_methods.
Print Assumptions C111_safe.
Print Assumptions C111_disabled_refuted.
Print Assumptions C111_uintptr_refuted.
Print Assumptions C111_mid_refuted.
Print Assumptions C111_full_refuted.
