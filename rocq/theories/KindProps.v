(** The numbers that the models of the checks, of package assert and of go-spew have for kinds are those of package reflect. *)
From Verif Require Import Base KindSpec.
From Verif Require CheckModel CheckSpec TestifyModel TestifySpec TestifyMoreModel TestifyMoreSpec BypassModel BypassSpec.
From Coq Require Import Lia.
Open Scope Z_scope.

(** A number is among a list of numbers exactly if its name is among their names *)
Lemma among_numbers : forall ks names, map (fun n => nth_error kind_names (Z.to_nat n)) ks = map Some names -> Forall (fun n => 0 <= n < 27) ks -> forall k, kind_among k names <-> In k ks.
Proof.
  intros ks names M F k. unfold kind_among, kind_is. split.
  - intros (name & I & P & E). apply (in_map Some) in I. rewrite <- M, in_map_iff in I. destruct I as (n & E' & I).
    assert (n = k); [|subst; auto]. rewrite Forall_forall in F. apply F in I. rewrite <- E in E'.
    assert (N : NoDup kind_names) by (repeat (constructor; [vm_compute; intuition discriminate|]); constructor).
    apply (proj1 (NoDup_nth_error kind_names) N) in E'; [lia|]. change (List.length kind_names) with 27%nat. lia.
  - intros I. rewrite Forall_forall in F. specialize (F k I). assert (J : In (nth_error kind_names (Z.to_nat k)) (map Some names)).
    { rewrite <- M. apply (in_map (fun n => nth_error kind_names (Z.to_nat n))). exact I. }
    apply in_map_iff in J. destruct J as (name & E & J). exists name. split; auto. split; [lia|]. auto.
Qed.

(** The checks: what can be nil, what values in an interface{} are, what Set wants and what is an interface type *)
Theorem C81_kinds : (forall k, CheckSpec.nilable k <-> kind_among k [bs "Chan"; bs "Func"; bs "Map"; bs "Ptr"; bs "Slice"; bs "UnsafePointer"]) /\
  (forall k, CheckSpec.dynamic_kind k <-> exists name, kind_is k name /\ name <> bs "Invalid" /\ name <> bs "Interface") /\
  kind_is CheckModel.KPtr (bs "Ptr") /\ kind_is CheckModel.KString (bs "String") /\ kind_is CheckModel.KInterface (bs "Interface") /\
  (forall ty k d, CheckModel.isNil (CheckModel.IVal ty k d) = true <-> kind_among k [bs "Chan"; bs "Func"; bs "Interface"; bs "Map"; bs "Ptr"; bs "Slice"] /\ d = 0).
Proof.
  split; [|split; [|split; [|split; [|split]]]].
  - intros k. unfold CheckSpec.nilable. symmetry. apply among_numbers; [reflexivity|repeat constructor; discriminate].
  - intros k. unfold CheckSpec.dynamic_kind. split.
    + intros [R N]. assert (L : (Z.to_nat k < List.length kind_names)%nat) by (change (List.length kind_names) with 27%nat; lia).
      apply nth_error_Some in L. destruct (nth_error kind_names (Z.to_nat k)) as [name|] eqn:E; [|congruence]. exists name. split; [split; [lia|exact E]|].
      assert (D : NoDup kind_names) by (repeat (constructor; [vm_compute; intuition discriminate|]); constructor).
      pose proof (proj1 (NoDup_nth_error kind_names) D (Z.to_nat k)) as J. split; intros ->.
      * specialize (J 0%nat). rewrite E in J. specialize (J ltac:(change (List.length kind_names) with 27%nat; lia) eq_refl). lia.
      * specialize (J 20%nat). rewrite E in J. specialize (J ltac:(change (List.length kind_names) with 27%nat; lia) eq_refl). lia.
    + intros (name & [P E] & N1 & N2). assert (L : (Z.to_nat k < 27)%nat) by (change 27%nat with (List.length kind_names); apply nth_error_Some; congruence).
      split; [|intros ->; injection E as E; apply N2; symmetry; exact E]. destruct (Z.eq_dec k 0) as [->|]; [injection E as E; exfalso; apply N1; symmetry; exact E|lia].
  - split; [discriminate|reflexivity].
  - split; [discriminate|reflexivity].
  - split; [discriminate|reflexivity].
  - intros ty k d. cbn [CheckModel.isNil]. unfold CheckModel.KChan, CheckModel.KSlice. rewrite !andb_true_iff, !Z.leb_le, Z.eqb_eq.
    rewrite (among_numbers [18; 19; 20; 21; 22; 23]); [|reflexivity|repeat constructor; discriminate]. cbn [In]. lia.
Qed.
Print Assumptions C81_kinds.
Example C81_kinds_example : kind_is 22 (bs "Ptr") /\ ~ kind_is 22 (bs "Slice") /\ CheckModel.isNil (CheckModel.IVal 900 22 0) = true.
Proof. split; [split; [discriminate|reflexivity]|]. split; [intros [_ E]; discriminate E|reflexivity]. Qed.

(** Package assert *)
Theorem C86_kinds : (forall ty s, kind_is (TestifyModel.kindOf (TestifyModel.VStr ty s)) (bs "String")) /\ (forall ty l, kind_is (TestifyModel.kindOf (TestifyModel.VArr ty l)) (bs "Array")) /\
  (forall ty l, kind_is (TestifyModel.kindOf (TestifyModel.VSlice ty l)) (bs "Slice")) /\ (forall b, kind_is (TestifyModel.kindOf (TestifyModel.VBytes b)) (bs "Slice")) /\
  (forall ty l, kind_is (TestifyModel.kindOf (TestifyModel.VMap ty l)) (bs "Map")) /\ (forall ty n, kind_is (TestifyModel.kindOf (TestifyModel.VChan ty n)) (bs "Chan")) /\
  (forall ty p, kind_is (TestifyModel.kindOf (TestifyModel.VPtr ty p)) (bs "Ptr")) /\
  (forall a, TestifySpec.isFunc (Some a) <-> kind_is (TestifyModel.kindOf a) (bs "Func")) /\
  (forall k, In k TestifyMoreSpec.otherKinds <-> kind_among k [bs "Bool"; bs "Complex64"; bs "Complex128"; bs "Func"; bs "Struct"; bs "UnsafePointer"]).
Proof.
  repeat (split; [intros; split; [discriminate|reflexivity]|]). split.
  - intros a. assert (A : kind_is (TestifyModel.kindOf a) (bs "Func") <-> kind_among (TestifyModel.kindOf a) [bs "Func"]).
    { split; [intros K; exists (bs "Func"); split; [now left|exact K]|intros (n & [<-|[]] & K); exact K]. }
    rewrite A, (among_numbers [19]); [|reflexivity|repeat constructor; discriminate]. unfold TestifySpec.isFunc. split.
    + intros (v & E & K). injection E as <-. left. auto.
    + intros [K|[]]. exists a. auto.
  - intros k. symmetry. apply among_numbers; [reflexivity|repeat constructor; discriminate].
Qed.
Print Assumptions C86_kinds.
Example C86_kinds_example : TestifySpec.isFunc (Some (TestifyModel.VOther 70 19 1)) /\ kind_is (TestifyModel.kindOf (TestifyModel.VOther 70 19 1)) (bs "Func").
Proof. split; [exists (TestifyModel.VOther 70 19 1); split; reflexivity|]. split; [discriminate|reflexivity]. Qed.

(** go-spew's bypass.go: the kinds whose word is a pointer or a number like one *)
Theorem C111_kinds : forall t, (BypassSpec.pointerLike t <-> kind_among (BypassModel.kindOf t) [bs "Uintptr"; bs "Chan"; bs "Func"; bs "Map"; bs "Ptr"; bs "UnsafePointer"]) /\
  forall t', kind_is (BypassModel.kindOf (BypassModel.TPtr t')) (bs "Ptr").
Proof.
  intros t. split; [|intros; split; [discriminate|reflexivity]]. rewrite (among_numbers [12; 18; 19; 21; 22; 26]); [|reflexivity|repeat constructor; discriminate].
  destruct t; [|reflexivity]. cbn. tauto.
Qed.
Print Assumptions C111_kinds.
Example C111_kinds_example : BypassSpec.pointerLike (BypassModel.TKind 21 5) /\ ~ BypassSpec.pointerLike (BypassModel.TKind 24 5) /\ kind_is 21 (bs "Map").
Proof. split; [cbn; tauto|]. split; [cbn; lia|]. split; [discriminate|reflexivity]. Qed.
