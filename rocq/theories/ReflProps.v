(** Properties C73-C76: reflect2's Set, New, Indirect, fields, IsNil and arrays. *)
From Verif Require Import Base JsonIntModel JsonCompModel MemModel MemSpec MemProofs MemProps ReflModel ReflSpec ReflProofs.
Open Scope Z_scope.
Open Scope list_scope.

(** Types for the examples.  2*k+1 is the pointer to k.  0: Inner = struct { A, B int64 }, 2: int64, 4: Outer = struct { X int64; Inner },
    6: interface{}, 8: [2]int64, 10: struct { A [2]int64; C int64 }, 12: []byte, others: byte *)
Definition r_base (k : nat) : kind :=
  match k with
  | 0 => GStruct [MField (bs "A") [] 2 0; MField (bs "B") [] 2 8]
  | 1 => GInt I64
  | 2 => GStruct [MField (bs "X") [] 2 0; MField (bs "Inner") [] 0 8]
  | 3 => GEFace
  | 4 => GArray 2 2
  | 5 => GStruct [MField (bs "A") [] 8 0; MField (bs "C") [] 2 16]
  | 6 => GSlice 14
  | _ => GInt U8
  end%nat.
Definition r_kinds (t : nat) : kind := if Nat.odd t then GPtr (Nat.div2 t) else r_base (Nat.div2 t).
Definition r_ptr (t : nat) : nat := S (2 * t).
Definition r_size (t : nat) : Z :=
  if Nat.odd t then 8 else match Nat.div2 t with 0%nat => 16 | 1%nat => 8 | 2%nat => 24 | 3%nat => 16 | 4%nat => 16 | 5%nat => 24 | 6%nat => 24 | _ => 1 end.
Definition r_zero (t : nat) (o : Z) : option cell :=
  if Nat.odd t then (if o =? 0 then Some (CPtr None) else None)
  else match Nat.div2 t with
  | 0%nat | 4%nat => if (o =? 0) || (o =? 8) then Some (CInt I64 0) else None
  | 1%nat => if o =? 0 then Some (CInt I64 0) else None
  | 2%nat | 5%nat => if (o =? 0) || (o =? 8) || (o =? 16) then Some (CInt I64 0) else None
  | 3%nat => if o =? 0 then Some (CType None) else if o =? 8 then Some (CPtr None) else None
  | 6%nat => if o =? 0 then Some (CPtr None) else if (o =? 8) || (o =? 16) then Some (CInt I64 0) else None
  | _ => if o =? 0 then Some (CInt U8 0) else None
  end.
Definition r_depth (t : nat) : nat := match t with 0 => 1 | 4 => 2 | 8 => 1 | 10 => 2 | _ => 0 end%nat.
Definition never (_ _ : nat) := false.
Definition all_exported (_ : mfield) := true.
Definition r_direct (t : nat) : bool := Nat.odd t.

Lemma r_ptr_kind : forall t, r_kinds (r_ptr t) = GPtr t.
Proof.
  intros t. unfold r_kinds, r_ptr. rewrite Nat.odd_succ, Nat.even_mul. cbn [Nat.even orb].
  replace (Nat.div2 (S (2 * t))) with t; [reflexivity|]. rewrite Nat.div2_succ_double. reflexivity.
Qed.
Lemma r_even : forall t, Nat.odd t = false -> t = (2 * Nat.div2 t)%nat.
Proof. intros t H. pose proof (Nat.div2_odd t) as E. rewrite H in E. cbn [Nat.b2n] in E. lia. Qed.

Ltac decide_z := repeat match goal with
  | |- context [?a =? ?b] => destruct (Z.eqb_spec a b); try lia
  end; try reflexivity.
Lemma r_layout : layout_ok r_kinds r_size r_zero r_ptr.
Proof.
  split; [exact r_ptr_kind|]. split; [|split].
  - intros t. unfold r_size. destruct (Nat.odd t); [lia|]. destruct (Nat.div2 t) as [|[|[|[|[|[|[|]]]]]]]; lia.
  - intros t fs i f K N. unfold r_kinds in K. unfold r_size at 2. unfold r_zero at 1. destruct (Nat.odd t); [discriminate|].
    destruct (Nat.div2 t) as [|[|[|[|[|[|[|]]]]]]]; cbn [r_base] in K; try discriminate; injection K as <-.
    all: destruct i as [|[|i]]; cbn [nth_error] in N; [injection N as <-|injection N as <-|destruct i; discriminate];
      cbn [m_offset m_type] in *; (split; [lia|]); (split; [cbn; lia|]); (split; [intros o H; cbn in H; cbn -[Z.eqb Z.add Z.mul]; decide_z|]);
      intros j g N' NE; destruct j as [|[|j]]; cbn [nth_error] in N'; try (injection N' as <-); try (destruct j; discriminate); try lia; cbn; lia.
  - intros t n e K. unfold r_kinds in K. destruct (Nat.odd t) eqn:O; [discriminate|]. pose proof (r_even t O) as T.
    unfold r_size at 1. unfold r_zero at 1. rewrite O.
    destruct (Nat.div2 t) as [|[|[|[|[|[|[|]]]]]]]; cbn [r_base] in K; try discriminate; injection K as <- <-.
    split; [reflexivity|]. intros i o H H'. cbn in H, H'. cbn -[Z.eqb Z.add Z.mul]. decide_z.
Qed.
Lemma r_types_ok : types_ok r_kinds 12 r_depth.
Proof.
  assert (E : forall t k, Nat.odd t = false -> Nat.div2 t = k -> t = (2 * k)%nat) by (intros t k O <-; now apply r_even).
  split; [|split; [|exists 14%nat; reflexivity]].
  - intros t fs f K I. unfold r_kinds in K. destruct (Nat.odd t) eqn:O; [discriminate|].
    destruct (Nat.div2 t) as [|[|[|[|[|[|[|]]]]]]] eqn:D; cbn [r_base] in K; try discriminate; injection K as <-; apply (E t _ O) in D; subst t;
      cbn in I; repeat (destruct I as [<-|I]; [cbn; lia|]); contradiction.
  - intros t n t' K. unfold r_kinds in K. destruct (Nat.odd t) eqn:O; [discriminate|].
    destruct (Nat.div2 t) as [|[|[|[|[|[|[|]]]]]]] eqn:D; cbn [r_base] in K; try discriminate; injection K as <- <-; apply (E t _ O) in D; subst t.
    cbn. lia.
Qed.

(** * C73: Set, New and Indirect *)

(** Set of two *T: the variable gets the value of the other one (also when they overlap) and nothing else changes; in both implementations *)
Theorem C73_set_partial : forall kinds size zero ptrTo assignable implements isDirect t m p q,
  layout_ok kinds size zero ptrTo -> is_var size zero m t p -> is_var size zero m t q ->
  exists m', USet size ptrTo t m (Some (ptrTo t, Some p)) (Some (ptrTo t, Some q)) = Done m' /\
    SSet kinds size assignable implements isDirect t m (Some (ptrTo t, Some p)) (Some (ptrTo t, Some q)) = Done m' /\
    copied m m' p q (size t) /\ is_var size zero m' t p.
Proof.
  intros kinds size zero ptrTo asg impl dir t m p q LAY P Q. destruct (memmove_ok size zero t m p q P Q) as (m' & E & C).
  exists m'. split; [|split; [|split; [exact C|eapply copied_var; eauto]]].
  - unfold USet. rewrite !assert_ok. exact E.
  - unfold SSet. rewrite !(elem_ok kinds size zero ptrTo LAY). cbn [bind]. rewrite assign_same. exact E.
Qed.
Print Assumptions C73_set_partial.
(** x, y := Inner{1, 2}, Inner{3, 4}; Set(&x, &y) *)
Definition r_mem : mem := mem_of [((1%nat, 0), CInt I64 1); ((1%nat, 8), CInt I64 2); ((2%nat, 0), CInt I64 3); ((2%nat, 8), CInt I64 4)] (fun _ => None) 3.
Lemma r_vars : is_var r_size r_zero r_mem 0 (1%nat, 0) /\ is_var r_size r_zero r_mem 0 (2%nat, 0).
Proof. split; intros o H; apply like_alike; cbn in H; cbn -[Z.eqb Z.add Z.mul]; decide_z. Qed.
Example C73_set_example : exists m', USet r_size r_ptr 0 r_mem (Some (1%nat, Some (1%nat, 0))) (Some (1%nat, Some (2%nat, 0))) = Done m' /\
  cells m' 1 0 = Some (CInt I64 3) /\ cells m' 1 8 = Some (CInt I64 4) /\ cells m' 2 0 = Some (CInt I64 3).
Proof.
  destruct r_vars as [P Q]. destruct (C73_set_partial _ _ _ _ never never r_direct _ _ _ _ r_layout P Q) as (m' & E & _ & (C & R & _) & _).
  exists m'. split; [exact E|]. pose proof (C 0 ltac:(cbn; lia)) as C0. pose proof (C 8 ltac:(cbn; lia)) as C8. cbn in C0, C8.
  split; [exact C0|]. split; [exact C8|]. rewrite R; [reflexivity|]. intros [? _]. discriminate.
Qed.

(** The unsafe Set takes nothing but two *T that are not nil *)
Theorem C73_types : forall size ptrTo t m obj val m', USet size ptrTo t m obj val = Done m' ->
  exists p q, obj = Some (ptrTo t, p) /\ val = Some (ptrTo t, q) /\ (size t <> 0 -> p <> None /\ q <> None).
Proof.
  intros size ptrTo t m obj val m' H. unfold USet in H.
  destruct (assertType ptrTo t obj) as [p| | |] eqn:E1; try discriminate. cbn [bind] in H.
  destruct (assertType ptrTo t val) as [q| | |] eqn:E2; try discriminate. cbn [bind] in H.
  apply assert_done in E1. apply assert_done in E2. exists p, q. repeat split; auto; intros ->; unfold typedmemmove in H;
    destruct (Z.eqb_spec (size t) 0); try contradiction; try discriminate. destruct p; discriminate.
Qed.
Print Assumptions C73_types.
Example C73_types_example : USet r_size r_ptr 0 r_mem (Some (1%nat, Some (1%nat, 0))) (Some (5%nat, Some (2%nat, 0))) = Panics /\
  USet r_size r_ptr 0 r_mem (Some (1%nat, Some (1%nat, 0))) (Some (0%nat, Some (2%nat, 0))) = Panics /\
  USet r_size r_ptr 0 r_mem None (Some (1%nat, Some (2%nat, 0))) = Panics.
Proof. repeat split; reflexivity. Qed.

(** The safe one does not look at its own type: Set of the type int64 copies an Inner *)
Definition C73_full : Prop := forall kinds size zero ptrTo assignable implements isDirect t m obj val,
  layout_ok kinds size zero ptrTo -> USet size ptrTo t m obj val = Panics -> SSet kinds size assignable implements isDirect t m obj val = Panics.
Theorem C73_types_refuted :
  USet r_size r_ptr 2 r_mem (Some (1%nat, Some (1%nat, 0))) (Some (1%nat, Some (2%nat, 0))) = Panics /\
  exists m', SSet r_kinds r_size never never r_direct 2 r_mem (Some (1%nat, Some (1%nat, 0))) (Some (1%nat, Some (2%nat, 0))) = Done m' /\
    cells m' 1 8 = Some (CInt I64 4).
Proof. split; [reflexivity|]. eexists. split; [reflexivity|]. reflexivity. Qed.
Print Assumptions C73_types_refuted.
Theorem C73_full_refuted : ~ C73_full.
Proof.
  intros F. destruct C73_types_refuted as (P & m' & E & _). rewrite (F _ _ _ _ never never r_direct _ _ _ _ r_layout P) in E. discriminate.
Qed.
Print Assumptions C73_full_refuted.

(** New: a new variable with the zero value *)
Theorem C73_new : forall size ptrTo zero t m m' obj, New ptrTo zero t m = (m', obj) ->
  exists p, obj = Some (ptrTo t, Some p) /\ fst p = next m /\ is_var size zero m' t p /\ (forall o, cells m' (fst p) (snd p + o) = zero t o) /\
    (forall b o, b <> next m -> cells m' b o = cells m b o).
Proof.
  intros size ptrTo zero t m m' obj E. unfold New in E. injection E as <- <-. exists (next m, 0).
  assert (C : forall o, (if Nat.eqb (next m) (next m) then zero t (0 + o) else cells m (next m) (0 + o)) = zero t o) by (intros; now rewrite Nat.eqb_refl).
  split; [reflexivity|]. split; [reflexivity|]. split; [|split].
  - intros o H. cbn [cells fst snd]. rewrite C. apply alike_refl.
  - exact C.
  - intros b o NB. cbn [cells]. now rewrite (proj2 (Nat.eqb_neq _ _) NB).
Qed.
Print Assumptions C73_new.
Example C73_new_example : exists m', New r_ptr r_zero 0 r_mem = (m', Some (1%nat, Some (3%nat, 0))) /\ cells m' 3 8 = Some (CInt I64 0) /\ cells m' 1 8 = Some (CInt I64 2).
Proof. eexists. repeat split. Qed.

(** The safe Indirect copies: the interface does not change when the variable does.  [isDirect] is the compiler's, as in MemSpec.v *)
Theorem C73_snapshot_partial : forall kinds size isDirect ptrTo t m p m1 i, kinds (ptrTo t) = GPtr t ->
  (forall t, isDirect t = true <-> direct kinds t) -> ~ direct kinds t -> ~ is_interface kinds t ->
  SIndirect kinds size isDirect t m (Some (ptrTo t, Some p)) = Done (m1, i) ->
  exists q, i = Some (t, Some q) /\ copied_new m m1 p q (size t).
Proof.
  intros kinds size dir ptrTo t m p m1 i KP DIR ND NI E. unfold SIndirect in E. rewrite KP in E. unfold toInterface in E.
  assert (D : dir t = false). { destruct (dir t) eqn:D; [|reflexivity]. apply DIR in D. contradiction. }
  rewrite D in E. destruct (copyNew (size t) m p) as [m' q] eqn:C.
  destruct (kinds t) eqn:K; try (injection E as <- <-; exists q; split; [reflexivity|now apply copyNew_copied]).
  - exfalso. apply NI. now left.
  - exfalso. apply NI. now right.
Qed.
Print Assumptions C73_snapshot_partial.
(** The unsafe one shares the memory of the variable *)
Theorem C73_shared : forall kinds bytesType depth ptrTo t m p, types_ok kinds bytesType depth -> ~ direct kinds t -> ~ is_interface kinds t ->
  UIndirect kinds depth ptrTo t m (Some (ptrTo t, Some p)) = Done (Some (t, Some p)).
Proof.
  intros kinds bytesType depth ptrTo t m p TOK ND NI. unfold UIndirect. rewrite assert_ok. cbn [bind].
  eapply indirect_ok; [exact TOK|intros J; apply ND; now apply just_direct|]. now apply ii_pointer.
Qed.
Print Assumptions C73_shared.
Lemma r_not_direct : forall t, Nat.odd t = false -> ~ direct r_kinds t.
Proof.
  assert (G : forall t, direct r_kinds t -> Nat.odd t = true).
  { intros t D. induction D as [t t' K|t k t' K|t K|t K|t K|t f K D IH|t t' K D IH]; unfold r_kinds in K; destruct (Nat.odd t); auto;
      destruct (Nat.div2 t) as [|[|[|[|[|[|[|]]]]]]]; discriminate. }
  intros t O D. apply G in D. congruence.
Qed.
Lemma r_direct_ok : forall t, r_direct t = true <-> direct r_kinds t.
Proof.
  intros t. unfold r_direct. destruct (Nat.odd t) eqn:O.
  - split; [intros _|reflexivity]. apply (d_ptr _ _ (Nat.div2 t)). unfold r_kinds. now rewrite O.
  - split; [discriminate|]. intros D. now apply r_not_direct in D.
Qed.
Example C73_snapshot_example : exists m1, SIndirect r_kinds r_size r_direct 0 r_mem (Some (1%nat, Some (1%nat, 0))) = Done (m1, Some (0%nat, Some (3%nat, 0))) /\
  ~ direct r_kinds 0 /\ ~ is_interface r_kinds 0.
Proof.
  eexists. split; [reflexivity|]. split; [now apply r_not_direct|]. intros [K|K]; discriminate.
Qed.
Definition C73_snapshot_full : Prop := forall kinds bytesType size zero depth ptrTo t m p q i m' u w,
  types_ok kinds bytesType depth -> layout_ok kinds size zero ptrTo ->
  UIndirect kinds depth ptrTo t m (Some (ptrTo t, Some p)) = Done i -> i = Some (u, Some w) ->
  USet size ptrTo t m (Some (ptrTo t, Some p)) (Some (ptrTo t, Some q)) = Done m' -> 
  forall o, 0 <= o < size u -> cells m' (fst w) (snd w + o) = cells m (fst w) (snd w + o).
(** i := Indirect(&x); Set(&x, &y): i.(Inner) is y now *)
Theorem C73_snapshot_refuted : exists m', UIndirect r_kinds r_depth r_ptr 0 r_mem (Some (1%nat, Some (1%nat, 0))) = Done (Some (0%nat, Some (1%nat, 0))) /\
  USet r_size r_ptr 0 r_mem (Some (1%nat, Some (1%nat, 0))) (Some (1%nat, Some (2%nat, 0))) = Done m' /\
  cells r_mem 1 0 = Some (CInt I64 1) /\ cells m' 1 0 = Some (CInt I64 3).
Proof. eexists. split; [reflexivity|]. split; [reflexivity|]. split; reflexivity. Qed.
Print Assumptions C73_snapshot_refuted.
Theorem C73_snapshot_full_refuted : ~ C73_snapshot_full.
Proof.
  intros F. destruct C73_snapshot_refuted as (m' & E & S' & A & B).
  pose proof (F _ _ _ _ _ _ _ _ _ _ _ _ _ _ r_types_ok r_layout E eq_refl S' 0 ltac:(cbn; lia)) as H. cbn [fst snd] in H. change (0 + 0) with 0 in H. congruence.
Qed.
Print Assumptions C73_snapshot_full_refuted.

(** * C74: fields *)

(** The safe implementation follows the path: Get gives a pointer to a copy of the field, Set changes the field and nothing else *)
Theorem C74_safe : forall kinds size zero ptrTo assignable implements exported isDirect m t p path g q,
  layout_ok kinds size zero ptrTo -> selects kinds m t p path g q -> exported g = true ->
  (exists m' c, SFieldGet kinds size ptrTo exported t (SF path g) m (Some (ptrTo t, Some p)) = Done (m', Some (ptrTo (m_type g), Some c)) /\
     copied_new m m' q c (size (m_type g))) /\
  (forall v, is_var size zero m (m_type g) q -> is_var size zero m (m_type g) v ->
     exists m', SFieldSet kinds size assignable implements exported isDirect t (SF path g) m (Some (ptrTo t, Some p)) (Some (ptrTo (m_type g), Some v)) = Done m' /\
       copied m m' q v (size (m_type g))).
Proof.
  intros kinds size zero ptrTo asg impl ex dir m t p path g q LAY S' EX. pose proof (fieldByIndex_ok kinds m t p path g q S') as FB. split.
  - unfold SFieldGet. rewrite (elem_ok kinds size zero ptrTo LAY). cbn [bind s_path]. rewrite FB. cbn [bind]. rewrite EX.
    destruct (copyNew (size (m_type g)) m q) as [m' c] eqn:C. exists m', c. split; [reflexivity|now apply copyNew_copied].
  - intros v Q V. destruct (memmove_ok size zero _ m q v Q V) as (m' & E & C). exists m'. split; [|exact C].
    unfold SFieldSet. rewrite !(elem_ok kinds size zero ptrTo LAY). cbn [bind s_path]. rewrite FB. cbn [bind]. rewrite EX, assign_same. exact E.
Qed.
Print Assumptions C74_safe.

(** The unsafe one for a field of the struct itself: Get gives a pointer to it; Set changes it, and no other field *)
Theorem C74_field_partial : forall kinds size zero ptrTo m t p fs i f,
  layout_ok kinds size zero ptrTo -> kinds t = GStruct fs -> nth_error fs i = Some f -> is_var size zero m t p ->
  let q := plus p (m_offset f) in
  UFieldGet ptrTo t (SF [i] f) m (Some (ptrTo t, Some p)) = Done (Some (ptrTo (m_type f), Some q)) /\ is_var size zero m (m_type f) q /\
  (forall v, is_var size zero m (m_type f) v ->
     exists m', UFieldSet size ptrTo t (SF [i] f) m (Some (ptrTo t, Some p)) (Some (ptrTo (m_type f), Some v)) = Done m' /\
       copied m m' q v (size (m_type f)) /\
       forall j g o, nth_error fs j = Some g -> j <> i -> 0 <= o < size (m_type g) ->
         cells m' (fst p) (snd p + m_offset g + o) = cells m (fst p) (snd p + m_offset g + o)).
Proof.
  intros kinds size zero ptrTo m t p fs i f LAY K N V q.
  destruct (proj1 (proj2 (proj2 LAY)) t fs i f K N) as (O1 & O2 & Z & DJ).
  assert (VF : is_var size zero m (m_type f) q).
  { intros o H. unfold q, plus. cbn [fst snd]. rewrite <- Z by exact H. rewrite <- Z.add_assoc. apply V. lia. }
  split; [|split; [exact VF|]].
  - unfold UFieldGet. rewrite assert_ok. cbn [bind s_field]. now rewrite add_plus.
  - intros v W. destruct (memmove_ok size zero _ m q v VF W) as (m' & E & C). exists m'. split; [|split; [exact C|]].
    + unfold UFieldSet. cbn [s_field]. rewrite !assert_ok. cbn [bind]. rewrite add_plus. exact E.
    + intros j g o N' NE H. destruct C as (_ & R & _). apply R. intros [_ H']. unfold q, plus in H'. cbn [snd] in H'.
      destruct (DJ j g N' (not_eq_sym NE)) as [L|L]; lia.
Qed.
Print Assumptions C74_field_partial.

(** For a field reached through embedded structs: it is the right field exactly if the structs begin where the outermost does *)
Theorem C74_iff_partial : forall kinds ptrTo m t p path g x, by_value kinds t path g x ->
  selects kinds m t p path g (plus p (x + m_offset g)) /\
  (UFieldGet ptrTo t (SF path g) m (Some (ptrTo t, Some p)) = Done (Some (ptrTo (m_type g), Some (plus p (x + m_offset g)))) <-> x = 0).
Proof.
  intros kinds ptrTo m t p path g x H. split.
  - revert p. induction H as [t i fs f K N|t i j r fs fs' f g x K N K' H IH]; intros p.
    + eapply sel_last; eauto.
    + eapply sel_struct; eauto. rewrite <- Z.add_assoc, <- plus_plus. apply IH.
  - unfold UFieldGet. rewrite assert_ok. cbn [bind s_field]. rewrite add_plus. split.
    + intros E. injection E as E. lia.
    + intros ->. reflexivity.
Qed.
Print Assumptions C74_iff_partial.

Definition C74_full : Prop := forall kinds size zero ptrTo m t p path g q, layout_ok kinds size zero ptrTo -> is_var size zero m t p ->
  selects kinds m t p path g q -> UFieldGet ptrTo t (SF path g) m (Some (ptrTo t, Some p)) = Done (Some (ptrTo (m_type g), Some q)).
(** FieldByName("B") of Outer{X: 1, Inner: {A: 2, B: 3}}: Get gives A, and Set of it to 9 changes A *)
Definition r_outer : mem := mem_of [((1%nat, 0), CInt I64 1); ((1%nat, 8), CInt I64 2); ((1%nat, 16), CInt I64 3); ((2%nat, 0), CInt I64 9)] (fun _ => None) 3.
Definition r_B : mfield := MField (bs "B") [] 2 8.
Example C74_path : by_value r_kinds 4 [1; 1]%nat r_B 8.
Proof.
  change 8 with (m_offset (MField (bs "Inner") [] 0 8) + 0). eapply bv_struct; [reflexivity|reflexivity|reflexivity|]. eapply bv_last; reflexivity.
Qed.
Lemma r_outer_var : is_var r_size r_zero r_outer 4 (1%nat, 0).
Proof. intros o H. apply like_alike. cbn in H. cbn -[Z.eqb Z.add Z.mul]. decide_z. Qed.
Theorem C74_promoted_refuted : selects r_kinds r_outer 4 (1%nat, 0) [1; 1]%nat r_B (1%nat, 16) /\
  UFieldGet r_ptr 4 (SF [1; 1]%nat r_B) r_outer (Some (9%nat, Some (1%nat, 0))) = Done (Some (5%nat, Some (1%nat, 8))) /\
  exists m', UFieldSet r_size r_ptr 4 (SF [1; 1]%nat r_B) r_outer (Some (9%nat, Some (1%nat, 0))) (Some (5%nat, Some (2%nat, 0))) = Done m' /\
    cells m' 1 8 = Some (CInt I64 9) /\ cells m' 1 16 = Some (CInt I64 3).
Proof.
  split; [exact (proj1 (C74_iff_partial r_kinds r_ptr r_outer 4 (1%nat, 0) _ _ _ C74_path))|]. split; [reflexivity|].
  eexists. split; [reflexivity|]. split; reflexivity.
Qed.
Print Assumptions C74_promoted_refuted.
Theorem C74_full_refuted : ~ C74_full.
Proof.
  intros F. destruct C74_promoted_refuted as (S' & E & _). pose proof (F _ _ _ _ _ _ _ _ _ _ r_layout r_outer_var S') as H.
  discriminate (eq_trans (eq_sym H) E).
Qed.
Print Assumptions C74_full_refuted.
Example C74_field_example : let m := r_outer in
  UFieldGet r_ptr 4 (SF [0]%nat (MField (bs "X") [] 2 0)) m (Some (9%nat, Some (1%nat, 0))) = Done (Some (5%nat, Some (1%nat, 0))) /\
  exists m', SFieldSet r_kinds r_size never never all_exported r_direct 4 (SF [1; 1]%nat r_B) m (Some (9%nat, Some (1%nat, 0))) (Some (5%nat, Some (2%nat, 0))) = Done m' /\
    cells m' 1 8 = Some (CInt I64 2) /\ cells m' 1 16 = Some (CInt I64 9).
Proof. split; [reflexivity|]. eexists. split; [reflexivity|]. split; reflexivity. Qed.
(** Fields that are not exported: the safe Get panics, the unsafe one does not *)
Theorem C74_unexported_refuted : forall kinds size zero ptrTo exported m t p fs i f,
  layout_ok kinds size zero ptrTo -> kinds t = GStruct fs -> nth_error fs i = Some f -> exported f = false ->
  SFieldGet kinds size ptrTo exported t (SF [i] f) m (Some (ptrTo t, Some p)) = Panics /\
  UFieldGet ptrTo t (SF [i] f) m (Some (ptrTo t, Some p)) = Done (Some (ptrTo (m_type f), Some (plus p (m_offset f)))).
Proof.
  intros kinds size zero ptrTo ex m t p fs i f LAY K N EX. split.
  - unfold SFieldGet. rewrite (elem_ok kinds size zero ptrTo LAY). cbn [bind s_path]. rewrite (fieldByIndex_ok kinds m t p [i] f _ (sel_last _ _ _ _ _ _ _ K N)).
    cbn [bind]. now rewrite EX.
  - unfold UFieldGet. rewrite assert_ok. cbn [bind s_field]. now rewrite add_plus.
Qed.
Print Assumptions C74_unexported_refuted.
Example C74_unexported_example : SFieldGet r_kinds r_size r_ptr (fun _ => false) 4 (SF [0]%nat (MField (bs "X") [] 2 0)) r_outer (Some (9%nat, Some (1%nat, 0))) = Panics.
Proof. reflexivity. Qed.

(** * C75: IsNil *)

(** Of a variable that can be nil: the safe IsNil tells; the unsafe one does so except for an interface{} that holds a nil pointer, which is nil for it *)
Theorem C75_iff_partial : forall kinds ptrTo t m p b, kinds (ptrTo t) = GPtr t -> nil_var kinds m t p b ->
  SIsNil kinds t m (Some (ptrTo t, Some p)) = Done b /\
  (UIsNil kinds ptrTo t m (Some (ptrTo t, Some p)) = Done b <-> ~ holds_nil kinds m t p) /\
  (holds_nil kinds m t p -> UIsNil kinds ptrTo t m (Some (ptrTo t, Some p)) = Done true /\ b = false).
Proof.
  intros kinds ptrTo t m p b KP H. unfold SIsNil, UIsNil. rewrite assert_ok. unfold elemOf. rewrite KP. cbn [bind]. unfold UnsafeIsNil, holds_nil.
  destruct H as [t p q K A|t p ty w K A W|t p ty w K A W].
  - rewrite (loadPtr_at _ _ _ A). destruct (kinds t) eqn:E; try contradiction; cbn [bind]; repeat split; intros; try discriminate; try (now destruct H); intros [? _]; discriminate.
  - rewrite K. unfold loadEFace. rewrite (load_at _ _ _ A). cbn [bind]. destruct ty as [ty|].
    + rewrite add_plus, (loadPtr_at _ _ _ W). cbn [bind]. split; [reflexivity|]. destruct w as [w|]; cbn [bind].
      * split; [split; [|reflexivity]|]; intros; [|destruct H as (_ & _ & H)]; [intros (_ & _ & H')|]; unfold at_ in *; congruence.
      * split; [split; [discriminate|]|split; reflexivity]. intros NH. exfalso. apply NH. split; [reflexivity|]. split; [now exists ty|exact W].
    + split; [reflexivity|]. cbn [bind]. split; [split; [|reflexivity]|].
      * intros _ (_ & (ty & H') & _). unfold at_ in *. congruence.
      * intros (_ & (ty & H') & _). unfold at_ in *. congruence.
  - rewrite K. rewrite (load_at _ _ _ A). cbn [bind]. split; [now destruct ty|]. split; [split; [intros _ (? & _); discriminate|intros _; now destruct ty]|].
    intros (? & _). discriminate.
Qed.
Print Assumptions C75_iff_partial.

Definition C75_full : Prop := forall kinds ptrTo t m p b, kinds (ptrTo t) = GPtr t -> nil_var kinds m t p b ->
  UIsNil kinds ptrTo t m (Some (ptrTo t, Some p)) = Done b.
(** var p *int64; var i interface{} = p *)
Definition r_typed_nil : mem := mem_of [((1%nat, 0), CType (Some 5%nat)); ((1%nat, 8), CPtr None)] (fun _ => None) 2.
Theorem C75_typed_nil_refuted : nil_var r_kinds r_typed_nil 6 (1%nat, 0) false /\
  UIsNil r_kinds r_ptr 6 r_typed_nil (Some (13%nat, Some (1%nat, 0))) = Done true /\ SIsNil r_kinds 6 r_typed_nil (Some (13%nat, Some (1%nat, 0))) = Done false.
Proof. split; [|split; reflexivity]. apply (nv_eface _ _ _ _ (Some 5%nat) None); reflexivity. Qed.
Print Assumptions C75_typed_nil_refuted.
Theorem C75_full_refuted : ~ C75_full.
Proof.
  intros F. destruct C75_typed_nil_refuted as (N & E & _). pose proof (F r_kinds r_ptr _ _ _ _ (r_ptr_kind 6) N) as H.
  discriminate (eq_trans (eq_sym H) E).
Qed.
Print Assumptions C75_full_refuted.
Example C75_example : nil_var r_kinds (mem_of [((1%nat, 0), CPtr None)] (fun _ => None) 2) 5 (1%nat, 0) true.
Proof. apply (nv_pointer _ _ _ _ None); [exact Logic.I|reflexivity]. Qed.

(** Other types: never nil for the unsafe one, a panic for the safe one.  Objects that are no pointer to a variable: nil is nil (a panic for types
    that cannot be nil); a nil *T is nil for the unsafe one, and a panic for the safe one *)
Theorem C75_others : forall kinds ptrTo t m p, kinds (ptrTo t) = GPtr t ->
  (match kinds t with GPtr _ | GMap _ _ | GChan | GFunc | GSlice _ | GEFace | GIFace | GUnsafePointer => False | _ => True end ->
   UIsNil kinds ptrTo t m (Some (ptrTo t, Some p)) = Done false /\ SIsNil kinds t m (Some (ptrTo t, Some p)) = Panics /\
   UIsNil kinds ptrTo t m None = Panics /\ SIsNil kinds t m None = Done true) /\
  (match kinds t with GPtr _ | GMap _ _ | GChan | GFunc | GSlice _ | GEFace | GIFace => True | _ => False end ->
   UIsNil kinds ptrTo t m None = Done true /\ SIsNil kinds t m None = Done true) /\
  UIsNil kinds ptrTo t m (Some (ptrTo t, None)) = Done true /\ SIsNil kinds t m (Some (ptrTo t, None)) = Panics.
Proof.
  intros kinds ptrTo t m p KP. unfold SIsNil, UIsNil. rewrite !assert_ok. unfold elemOf. rewrite KP. cbn [bind]. unfold UnsafeIsNil.
  split; [|split; [|split; reflexivity]]; destruct (kinds t); intros H; try contradiction; repeat split; reflexivity.
Qed.
Print Assumptions C75_others.
(** unsafe.Pointer can be nil: the unsafe implementation says it never is *)
Theorem C75_unsafe_pointer_refuted : forall kinds ptrTo t m p q, kinds (ptrTo t) = GPtr t -> kinds t = GUnsafePointer -> at_ m p (CPtr q) ->
  UIsNil kinds ptrTo t m (Some (ptrTo t, Some p)) = Done false /\ SIsNil kinds t m (Some (ptrTo t, Some p)) = Done (match q with None => true | Some _ => false end).
Proof.
  intros kinds ptrTo t m p q KP K A. unfold SIsNil, UIsNil. rewrite assert_ok. unfold elemOf. rewrite KP. cbn [bind]. unfold UnsafeIsNil. rewrite K.
  split; [reflexivity|]. now rewrite (loadPtr_at _ _ _ A).
Qed.
Print Assumptions C75_unsafe_pointer_refuted.
Example C75_unsafe_pointer_example : let kinds := (fun t => match t with 0%nat => GUnsafePointer | _ => GPtr (pred t) end) in
  let m := mem_of [((1%nat, 0), CPtr None)] (fun _ => None) 2 in
  UIsNil kinds S 0 m (Some (1%nat, Some (1%nat, 0))) = Done false /\ SIsNil kinds 0 m (Some (1%nat, Some (1%nat, 0))) = Done true.
Proof. apply (C75_unsafe_pointer_refuted _ _ _ _ _ None); reflexivity. Qed.
Example C75_others_example : UIsNil r_kinds r_ptr 2 r_mem (Some (5%nat, Some (1%nat, 0))) = Done false /\ SIsNil r_kinds 2 r_mem (Some (5%nat, Some (1%nat, 0))) = Panics.
Proof. split; reflexivity. Qed.

(** * C76: arrays *)

(** Inside of the array both give the element: the unsafe Get a pointer to it, the safe one to a copy; Set changes it and nothing else *)
Theorem C76_inside_partial : forall kinds size zero ptrTo assignable implements isDirect m t n e p i,
  layout_ok kinds size zero ptrTo -> kinds t = GArray n e -> is_var size zero m t p -> 0 <= i < Z.of_nat n ->
  let q := plus p (i * size e) in
  UArrayGet size ptrTo t e m (Some (ptrTo t, Some p)) i = Done (Some (ptrTo e, Some q)) /\ is_var size zero m e q /\
  (exists m' c, SArrayGet kinds size ptrTo t e m (Some (ptrTo t, Some p)) i = Done (m', Some (ptrTo e, Some c)) /\ copied_new m m' q c (size e)) /\
  (forall v, is_var size zero m e v -> exists m',
     UArraySet size ptrTo t e m (Some (ptrTo t, Some p)) i (Some (ptrTo e, Some v)) = Done m' /\
     SArraySet kinds size assignable implements isDirect t e m (Some (ptrTo t, Some p)) i (Some (ptrTo e, Some v)) = Done m' /\
     copied m m' q v (size e)).
Proof.
  intros kinds size zero ptrTo asg impl dir m t n e p i LAY K V I q.
  destruct (proj2 (proj2 (proj2 LAY)) t n e K) as (SZ & Z). pose proof (size_pos kinds size zero ptrTo LAY e) as SP.
  assert (VE : is_var size zero m e q).
  { intros o H. unfold q, plus. cbn [fst snd]. rewrite <- (Z i o I H), <- Z.add_assoc. apply V. nia. }
  assert (B : (0 <=? i) && (i <? Z.of_nat n) = true) by lia.
  split; [|split; [exact VE|split]].
  - unfold UArrayGet. rewrite assert_ok. cbn [bind]. unfold arrayAt. now rewrite add_plus.
  - unfold SArrayGet. rewrite (elem_ok kinds size zero ptrTo LAY). cbn [bind]. rewrite K, B. change (fst p, snd p + i * size e) with q.
    destruct (copyNew (size e) m q) as [m' c] eqn:C. exists m', c. split; [reflexivity|now apply copyNew_copied].
  - intros v W. destruct (memmove_ok size zero _ m q v VE W) as (m' & E & C). exists m'. split; [|split; [|exact C]].
    + unfold UArraySet. rewrite !assert_ok. cbn [bind]. unfold arrayAt. rewrite add_plus. exact E.
    + unfold SArraySet. rewrite !(elem_ok kinds size zero ptrTo LAY). cbn [bind]. rewrite K, B, assign_same. exact E.
Qed.
Print Assumptions C76_inside_partial.

(** Outside of it the safe implementation panics, and the unsafe one gives a pointer outside of the array; if there are variables like an element
    there, Set changes them *)
Theorem C76_outside : forall kinds size zero ptrTo assignable implements isDirect m t n e p i v,
  layout_ok kinds size zero ptrTo -> kinds t = GArray n e -> ~ (0 <= i < Z.of_nat n) -> 0 < size e ->
  let q := plus p (i * size e) in
  SArrayGet kinds size ptrTo t e m (Some (ptrTo t, Some p)) i = Panics /\
  SArraySet kinds size assignable implements isDirect t e m (Some (ptrTo t, Some p)) i (Some (ptrTo e, Some v)) = Panics /\
  UArrayGet size ptrTo t e m (Some (ptrTo t, Some p)) i = Done (Some (ptrTo e, Some q)) /\
  (forall o, 0 <= o < size e -> ~ in_region p (size t) (fst q) (snd q + o)) /\
  (is_var size zero m e q -> is_var size zero m e v -> exists m',
     UArraySet size ptrTo t e m (Some (ptrTo t, Some p)) i (Some (ptrTo e, Some v)) = Done m' /\ copied m m' q v (size e)).
Proof.
  intros kinds size zero ptrTo asg impl dir m t n e p i v LAY K I SE q.
  destruct (proj2 (proj2 (proj2 LAY)) t n e K) as (SZ & Z).
  assert (B : (0 <=? i) && (i <? Z.of_nat n) = false) by lia.
  split; [|split; [|split; [|split]]].
  - unfold SArrayGet. rewrite (elem_ok kinds size zero ptrTo LAY). cbn [bind]. now rewrite K, B.
  - unfold SArraySet. rewrite !(elem_ok kinds size zero ptrTo LAY). cbn [bind]. now rewrite K, B.
  - unfold UArrayGet. rewrite assert_ok. cbn [bind]. unfold arrayAt. now rewrite add_plus.
  - intros o H [_ R]. unfold q, plus in R. cbn [snd] in R. rewrite SZ in R. nia.
  - intros VE W. destruct (memmove_ok size zero _ m q v VE W) as (m' & E & C). exists m'. split; [|exact C].
    unfold UArraySet. rewrite !assert_ok. cbn [bind]. unfold arrayAt. rewrite add_plus. exact E.
Qed.
Print Assumptions C76_outside.
Definition C76_full : Prop := forall kinds size zero ptrTo t n e m p i v, layout_ok kinds size zero ptrTo -> kinds t = GArray n e -> ~ (0 <= i < Z.of_nat n) ->
  UArraySet size ptrTo t e m (Some (ptrTo t, Some p)) i (Some (ptrTo e, Some v)) = Panics.
(** s := struct { A [2]int64; C int64 }{...}: SetIndex(&s.A, 2, &nine) changes s.C *)
Theorem C76_bounds_refuted : exists m', UArraySet r_size r_ptr 8 2 r_outer (Some (17%nat, Some (1%nat, 0))) 2 (Some (5%nat, Some (2%nat, 0))) = Done m' /\
  cells r_outer 1 16 = Some (CInt I64 3) /\ cells m' 1 16 = Some (CInt I64 9).
Proof. eexists. split; [reflexivity|]. split; reflexivity. Qed.
Print Assumptions C76_bounds_refuted.
Theorem C76_full_refuted : ~ C76_full.
Proof.
  intros F. destruct C76_bounds_refuted as (m' & E & _).
  pose proof (F r_kinds r_size r_zero r_ptr 8%nat 2%nat 2%nat r_outer (1%nat, 0) 2 (2%nat, 0) r_layout eq_refl ltac:(lia)) as H.
  discriminate (eq_trans (eq_sym H) E).
Qed.
Print Assumptions C76_full_refuted.
Example C76_inside_example : exists m', UArraySet r_size r_ptr 8 2 r_outer (Some (17%nat, Some (1%nat, 0))) 1 (Some (5%nat, Some (2%nat, 0))) = Done m' /\
  cells m' 1 8 = Some (CInt I64 9) /\ cells m' 1 16 = Some (CInt I64 3).
Proof. eexists. split; [reflexivity|]. split; reflexivity. Qed.

(** ** Set of an interface variable to a value that is none *)
(** With the safe implementation, a value of another type that the interface type has room for: the variable holds the type of the value and its word, of
    a variable of its own if it is no pointer; nothing else changes that was there. *)
Theorem C73_boxed : forall kinds size ptrTo assignable implements isDirect t u m p q w, kinds (ptrTo u) = GPtr u -> kinds (ptrTo w) = GPtr w ->
  kinds u = GEFace \/ kinds u = GIFace -> kinds w <> GEFace -> kinds w <> GIFace ->
  w <> u -> assignable w u = false -> implements w u = true -> isDirect w = false ->
  exists m', SSet kinds size assignable implements isDirect t m (Some (ptrTo u, Some p)) (Some (ptrTo w, Some q)) = Done m' /\
    cells m' (fst p) (snd p) = Some (match kinds u with GEFace => CType (Some w) | _ => CItab (Some w) end) /\
    cells m' (fst p) (snd p + 8) = Some (CPtr (Some (next m, 0))) /\
    (forall b o, b <> next m -> (b, o) <> p -> (b, o) <> (fst p, snd p + 8) -> cells m' b o = cells m b o) /\
    (fst p <> next m -> forall o, 0 <= o < size w -> cells m' (next m) o = cells m (fst q) (snd q + o)).
Proof.
  intros kinds size ptrTo assignable implements isDirect t u m p q w Ku Kw I N1 N2 N A M D.
  unfold SSet, elemOf. rewrite Ku, Kw. cbn [bind]. unfold assign. rewrite A, M. destruct (Nat.eqb_spec w u) as [|_]; [congruence|]. cbn [orb].
  assert (T : toInterface kinds size isDirect m w q = let (m, q) := copyNew (size w) m q in Done (m, Some (w, Some q))).
  { unfold toInterface. rewrite D. destruct (kinds w); congruence. }
  rewrite T. unfold copyNew. cbn [bind]. clear T.
  assert (S : forall c, let m' := store2 (mkM (fun b o => if Nat.eqb b (next m) then (if (0 <=? o) && (o <? size w) then cells m (fst q) (snd q + o) else None) else cells m b o) (maps m) (S (next m))) p c (CPtr (Some (next m, 0))) in
    cells m' (fst p) (snd p) = Some c /\ cells m' (fst p) (snd p + 8) = Some (CPtr (Some (next m, 0))) /\
    (forall b o, b <> next m -> (b, o) <> p -> (b, o) <> (fst p, snd p + 8) -> cells m' b o = cells m b o) /\
    (fst p <> next m -> forall o, 0 <= o < size w -> cells m' (next m) o = cells m (fst q) (snd q + o))).
  { intros c. cbn zeta. unfold store2. cbn [cells]. rewrite Nat.eqb_refl, !Z.eqb_refl.
    destruct (Z.eqb_spec (snd p + 8) (snd p)); [lia|]. repeat split; auto.
    - intros b o B X Y. destruct (Nat.eqb_spec b (next m)); [congruence|]. destruct (Nat.eqb_spec b (fst p)) as [->|]; [|reflexivity].
      destruct (Z.eqb_spec o (snd p)) as [->|]; [destruct p; cbn in X; congruence|]. destruct (Z.eqb_spec o (snd p + 8)) as [->|]; [congruence|reflexivity].
    - intros B o O. destruct (Nat.eqb_spec (next m) (fst p)); [congruence|]. rewrite Nat.eqb_refl.
      destruct (Z.leb_spec 0 o); [|lia]. destruct (Z.ltb_spec o (size w)); [reflexivity|lia]. }
  destruct I as [-> | ->]; eexists; (split; [reflexivity|apply S]).
Qed.
Print Assumptions C73_boxed.
Example C73_boxed_example : exists m', SSet r_kinds r_size never (fun w u => Nat.eqb w 0 && Nat.eqb u 6) r_direct 6 r_outer (Some (r_ptr 6, Some (1%nat, 0))) (Some (r_ptr 0, Some (2%nat, 0))) = Done m' /\
  cells m' 1 0 = Some (CType (Some 0%nat)) /\ r_kinds 6 = GEFace /\ r_kinds 0 <> GEFace /\ r_kinds 0 <> GIFace /\ r_direct 0 = false.
Proof. eexists. split; [reflexivity|]. repeat split; try reflexivity; discriminate. Qed.
