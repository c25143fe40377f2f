(** Property C125: reflect2's IsNil and IsNullable of any object. *)
From Verif Require Import Base JsonIntModel JsonCompModel MemModel MemSpec MemProofs MemProps ReflModel ReflSpec ReflProps RNilModel.
Open Scope Z_scope.
Open Scope list_scope.

(** * C125: IsNil of an object *)

(** An interface with the value of a variable: IsNil tells whether its data word is nil.  That is so for a nil interface, for an interface that holds a nil
    pointer, and for a variable that is one word, a nil pointer, also as the only field of a struct or the only element of an array *)
Theorem C125_iff : forall kinds m t p i, in_interface kinds m t p i ->
  (IsNil i = true <->
   (kinds t = GEFace /\ (at_ m p (CType None) \/ at_ m (plus p 8) (CPtr None) /\ i <> None)) \/
   (kinds t = GIFace /\ (at_ m p (CItab None) \/ at_ m (plus p 8) (CPtr None) /\ i <> None)) \/
   (direct kinds t /\ at_ m p (CPtr None))).
Proof.
  assert (ND : forall kinds t, kinds t = GEFace \/ kinds t = GIFace -> ~ direct kinds t).
  { intros kinds t H D. inversion D; subst; destruct H; congruence. }
  intros kinds m t p i H. destruct H as [t p K A|t p t' w K A W|t p K A|t p t' w K A W|t p w D A|t p D N]; cbn [IsNil].
  - split; [|reflexivity]. intros _. left. auto.
  - destruct w as [w|].
    + split; [discriminate|]. intros [[_ [B|[B _]]]|[[B _]|[B _]]]; unfold at_ in *; try congruence. exfalso. eapply ND; eauto.
    + split; [|reflexivity]. intros _. left. split; auto. right. split; auto. discriminate.
  - split; [|reflexivity]. intros _. right. left. auto.
  - destruct w as [w|].
    + split; [discriminate|]. intros [[B _]|[[_ [B|[B _]]]|[B _]]]; unfold at_ in *; try congruence. exfalso. eapply ND; eauto.
    + split; [|reflexivity]. intros _. right. left. split; auto. right. split; auto. discriminate.
  - destruct w as [w|].
    + split; [discriminate|]. intros [[B _]|[[B _]|[_ B]]]; [exfalso; eapply ND; eauto..|]. unfold at_ in *. congruence.
    + split; [|reflexivity]. intros _. right. right. auto.
  - split; [discriminate|]. intros [[B _]|[[B _]|[B _]]]; exfalso; [apply N; left; auto|apply N; right; auto|auto].
Qed.
Print Assumptions C125_iff.

(** So it is right for the variables that can be nil, except slices and interfaces that hold a nil pointer *)
Theorem C125_partial : forall kinds m t p b i, nil_var kinds m t p b -> in_interface kinds m t p i ->
  match kinds t with GSlice _ => False | GEFace | GIFace => i = None \/ ~ at_ m (plus p 8) (CPtr None) | _ => True end -> IsNil i = b.
Proof.
  intros kinds m t p b i N H X. destruct N as [t p q K A|t p ty w K A W|t p ty w K A W].
  - assert (D : direct kinds t).
    { destruct (kinds t) eqn:E; try contradiction; [eapply d_ptr|eapply d_map|eapply d_func|eapply d_chan]; eauto. }
    inversion H as [? ? K' A'|? ? ? ? K' A' W'|? ? K' A'|? ? ? ? K' A' W'|? ? w D' A'|? ? D' N']; subst; try (rewrite K' in K; contradiction).
    + unfold at_ in *. rewrite A in A'. injection A' as ->. destruct w; reflexivity.
    + contradiction.
  - rewrite K in X. inversion H as [? ? K' A'|? ? ? ? K' A' W'|? ? K' A'|? ? ? ? K' A' W'|? ? w' D' A'|? ? D' N']; subst; try congruence.
    + unfold at_ in *. rewrite A in A'. injection A' as ->. reflexivity.
    + unfold at_ in *. rewrite A in A'. injection A' as ->. cbn [IsNil]. destruct w0; auto. destruct X; [discriminate|tauto].
    + exfalso. apply N'. now left.
  - rewrite K in X. inversion H as [? ? K' A'|? ? ? ? K' A' W'|? ? K' A'|? ? ? ? K' A' W'|? ? w' D' A'|? ? D' N']; subst; try congruence.
    + unfold at_ in *. rewrite A in A'. injection A' as ->. reflexivity.
    + unfold at_ in *. rewrite A in A'. injection A' as ->. cbn [IsNil]. destruct w0; auto. destruct X; [discriminate|tauto].
    + exfalso. apply N'. now right.
Qed.
Print Assumptions C125_partial.

(** var p *int64, var q *int64 = &x *)
Definition n_mem : mem := mem_of [((1%nat, 0), CPtr None); ((2%nat, 0), CPtr (Some (3%nat, 0))); ((3%nat, 0), CInt I64 7)] (fun _ => None) 4.
Example C125_example : nil_var r_kinds n_mem 5 (1%nat, 0) true /\ in_interface r_kinds n_mem 5 (1%nat, 0) (Some (5%nat, None)) /\
  nil_var r_kinds n_mem 5 (2%nat, 0) false /\ in_interface r_kinds n_mem 5 (2%nat, 0) (Some (5%nat, Some (3%nat, 0))) /\
  IsNil (Some (5%nat, None)) = true /\ IsNil (Some (5%nat, Some (3%nat, 0))) = false.
Proof.
  repeat split; try reflexivity.
  - apply (nv_pointer _ _ _ _ None); [exact Logic.I|reflexivity].
  - apply ii_direct; [eapply d_ptr; reflexivity|reflexivity].
  - apply (nv_pointer _ _ _ _ (Some (3%nat, 0))); [exact Logic.I|reflexivity].
  - apply ii_direct; [eapply d_ptr; reflexivity|reflexivity].
Qed.

(** A nil slice is never nil *)
Theorem C125_slice_refuted : forall kinds m t e p i, kinds t = GSlice e -> in_interface kinds m t p i -> IsNil i = false.
Proof.
  intros kinds m t e p i K H. destruct H as [t p K' A|t p t' w K' A W|t p K' A|t p t' w K' A W|t p w D A|t p D N]; try congruence; [|reflexivity].
  inversion D; subst; congruence.
Qed.
Print Assumptions C125_slice_refuted.
Example C125_slice_example : nil_var r_kinds n_mem 12 (1%nat, 0) true /\ in_interface r_kinds n_mem 12 (1%nat, 0) (Some (12%nat, Some (1%nat, 0))).
Proof.
  split; [apply (nv_pointer _ _ _ _ None); [exact Logic.I|reflexivity]|]. apply ii_pointer.
  - intros D. inversion D as [? ? E|? ? ? E|? E|? E|? E|? ? E|? ? E]; subst; discriminate E.
  - intros [E|E]; discriminate E.
Qed.
(** A struct that has one field, a nil pointer, is nil *)
Theorem C125_struct_refuted : forall kinds m t f u p i, kinds t = GStruct [f] -> kinds (m_type f) = GPtr u -> at_ m p (CPtr None) -> in_interface kinds m t p i ->
  IsNil i = true /\ forall b, ~ nil_var kinds m t p b.
Proof.
  intros kinds m t f u p i K K' A H. split.
  - apply (C125_iff kinds m t p i H). right. right. split; auto. eapply d_struct; [exact K|]. eapply d_ptr; exact K'.
  - intros b N. destruct N as [t p q X _|t p ty w X _ _|t p ty w X _ _]; try congruence. rewrite K in X. contradiction.
Qed.
Print Assumptions C125_struct_refuted.
Definition n_kinds (t : nat) : kind := match t with 0 => GStruct [MField (bs "P") [] 1 0] | _ => GPtr 2 end%nat.
Example C125_struct_example : n_kinds 0%nat = GStruct [MField (bs "P") [] 1%nat 0] /\ n_kinds 1%nat = GPtr 2 /\ at_ n_mem (1%nat, 0) (CPtr None) /\
  in_interface n_kinds n_mem 0%nat (1%nat, 0) (Some (0%nat, None)).
Proof. repeat split. apply ii_direct; [|reflexivity]. eapply d_struct; [reflexivity|]. eapply d_ptr. reflexivity. Qed.
Definition C125_full : Prop := forall kinds m t p b i, nil_var kinds m t p b -> in_interface kinds m t p i -> IsNil i = b.
Theorem C125_full_refuted : ~ C125_full.
Proof. intros F. destruct C125_slice_example as [N I]. pose proof (F _ _ _ _ _ _ N I) as E. discriminate E. Qed.
Print Assumptions C125_full_refuted.

(** IsNullable of a kind: whether variables of it can be nil (but unsafe.Pointer) *)
Theorem C125_nullable : forall kinds t, IsNullable (kinds t) = true <-> exists m p, nil_var kinds m t p true.
Proof.
  intros kinds t. split.
  - intros H. assert (G : forall c, exists m p, at_ m p c /\ at_ m (plus p 8) (CPtr None)).
    { intros c. exists (mem_of [((1%nat, 0), c); ((1%nat, 8), CPtr None)] (fun _ => None) 2%nat), (1%nat, 0). split; reflexivity. }
    destruct (kinds t) eqn:K; try discriminate H.
    1-3: destruct (G (CPtr None)) as (m & p & A & _); exists m, p; apply (nv_pointer kinds m t p None); [now rewrite K|exact A].
    + destruct (G (CType None)) as (m & p & A & W). exists m, p. exact (nv_eface kinds m t p None None K A W).
    + destruct (G (CItab None)) as (m & p & A & W). exists m, p. exact (nv_iface kinds m t p None None K A W).
    + destruct (G (CPtr None)) as (m & p & A & _); exists m, p; apply (nv_pointer kinds m t p None); [now rewrite K|exact A].
    + destruct (G (CPtr None)) as (m & p & A & _); exists m, p; apply (nv_pointer kinds m t p None); [now rewrite K|exact A].
  - intros (m & p & N). inversion N as [t' p' q X _|t' p' ty w X _ _|t' p' ty w X _ _]; subst; try (now rewrite X). now destruct (kinds t).
Qed.
Print Assumptions C125_nullable.
Example C125_nullable_example : IsNullable (r_kinds 12) = true /\ IsNullable (r_kinds 2) = false.
Proof. split; reflexivity. Qed.

(** PtrOf and RTypeOf: what the interface of a variable holds and of which type; NoEscape gives the same address *)
Theorem C125_words : forall kinds m t p i, in_interface kinds m t p i ->
  (IsNil i = true <-> PtrOf i = None) /\ (~ is_interface kinds t -> RTypeOf i = Some t) /\ (forall w, direct kinds t -> at_ m p (CPtr w) -> PtrOf i = w) /\
  (~ direct kinds t -> ~ is_interface kinds t -> PtrOf i = Some p) /\ forall a, NoEscape a = a.
Proof.
  intros kinds m t p i H. split; [|split; [|split; [|split]]].
  - destruct i as [[t' [w|]]|]; cbn; split; auto; discriminate.
  - intros N. destruct H as [? ? K _|? ? ? ? K _ _|? ? K _|? ? ? ? K _ _|? ? ? _ _|? ? _ _]; try reflexivity; exfalso; apply N; unfold is_interface; auto.
  - intros w D A. destruct H as [? ? K _|? ? ? ? K _ _|? ? K _|? ? ? ? K _ _|? ? ? _ A'|? ? D' _].
    1-4: exfalso; inversion D; subst; congruence.
    + unfold at_ in *. rewrite A in A'. injection A' as ->. reflexivity.
    + contradiction.
  - intros D N. destruct H as [? ? K _|? ? ? ? K _ _|? ? K _|? ? ? ? K _ _|? ? ? D' _|? ? _ _]; try reflexivity; exfalso; auto; apply N; unfold is_interface; auto.
  - intros a. apply Z.lxor_0_r.
Qed.
Print Assumptions C125_words.
Example C125_words_example : in_interface r_kinds n_mem 12 (1%nat, 0) (Some (12%nat, Some (1%nat, 0))) /\ PtrOf (Some (12%nat, Some (1%nat, 0))) = Some (1%nat, 0) /\
  RTypeOf (Some (12%nat, Some (1%nat, 0))) = Some 12%nat /\ PtrOf (Some (5%nat, None)) = None /\ NoEscape 824633720832 = 824633720832.
Proof. repeat split; try reflexivity. exact (proj2 C125_slice_example). Qed.
