From Verif Require Import Base JsonIntModel JsonCompModel MemModel MemSpec MemProofs ReflModel ReflSpec.
Open Scope Z_scope.
Open Scope list_scope.

Lemma like_alike : forall a b, like a b = true <-> alike a b.
Proof.
  assert (K : forall a b, intkind_eqb a b = true -> a = b) by (intros [] []; (reflexivity || discriminate)).
  assert (R : forall a, intkind_eqb a a = true) by (intros []; reflexivity).
  intros a b. split.
  - destruct a as [[]|], b as [[]|]; cbn; intro H; try discriminate H; try constructor. apply K in H. subst. constructor.
  - intros []; cbn; auto.
Qed.
Lemma alike_refl : forall a, alike a a.
Proof. intros [[]|]; constructor. Qed.
Lemma like_trans : forall a b c, like a c = true -> like b c = true -> like a b = true.
Proof.
  assert (K : forall a b, intkind_eqb a b = true -> a = b) by (intros [] []; (reflexivity || discriminate)).
  assert (R : forall a, intkind_eqb a a = true) by (intros []; reflexivity).
  intros [[]|] [[]|] [[]|]; cbn; intros; try discriminate; auto.
  apply K in H. apply K in H0. subst. apply R.
Qed.
Lemma offsets_in : forall n i, In i (offsets n) <-> 0 <= i < n.
Proof.
  intros n i. unfold offsets. rewrite in_map_iff. split.
  - intros (k & <- & I). apply in_seq in I. lia.
  - intros H. exists (Z.to_nat i). split; [lia|]. apply in_seq. lia.
Qed.
Lemma move_copied : forall n m p q, copied m (move n m p q) p q n.
Proof.
  intros n m [b o] [b' o']. unfold copied, move, in_region. cbn [cells fst snd maps next]. split; [|split; [|auto]].
  - intros x H. rewrite Nat.eqb_refl. replace ((o <=? o + x) && (o + x <? o + n)) with true by lia. cbn [andb].
    replace (o <=? o + x) with true by lia. replace (o + x <? o + n) with true by lia. cbn. f_equal. lia.
  - intros c x H. destruct (Nat.eqb_spec c b) as [->|]; [|reflexivity]. cbn [andb].
    destruct ((o <=? x) && (x <? o + n)) eqn:E; [|reflexivity]. exfalso. apply H. split; [reflexivity|lia].
Qed.
Lemma copyNew_copied : forall n m p m' q, copyNew n m p = (m', q) -> copied_new m m' p q n.
Proof.
  intros n m [b o] m' q E. unfold copyNew in E. injection E as <- <-. unfold copied_new. cbn [cells fst snd maps next].
  split; [reflexivity|]. split; [|split; [|auto]].
  - intros x H. rewrite Nat.eqb_refl. replace ((0 <=? 0 + x) && (0 + x <? n)) with true by lia. f_equal.
  - intros c x H. now rewrite (proj2 (Nat.eqb_neq _ _) H).
Qed.

Section Proofs.
  Variable kinds : nat -> kind.
  Variable size : nat -> Z.
  Variable depth : nat -> nat.
  Variable zero : nat -> Z -> option cell.
  Variable ptrTo : nat -> nat.
  Variable assignable implements : nat -> nat -> bool.
  Variable exported : mfield -> bool.
  Variable isDirect : nat -> bool.
  Hypothesis LAY : layout_ok kinds size zero ptrTo.
  Notation is_var := (is_var size zero).
  Notation selects := (selects kinds).

  Lemma size_pos : forall t, 0 <= size t.
  Proof. apply LAY. Qed.
  Lemma kinds_ptr : forall t, kinds (ptrTo t) = GPtr t.
  Proof. apply LAY. Qed.
  Lemma ptrTo_inj : forall t u, ptrTo t = ptrTo u -> t = u.
  Proof. intros t u E. pose proof (kinds_ptr t) as A. rewrite E, kinds_ptr in A. congruence. Qed.

  Lemma memmove_ok : forall t m p q, is_var m t p -> is_var m t q -> 
    exists m', typedmemmove size t m (Some p) (Some q) = Done m' /\ copied m m' p q (size t).
  Proof.
    intros t m p q P Q. unfold typedmemmove. destruct (Z.eqb_spec (size t) 0) as [Z0|NZ].
    - exists m. split; [reflexivity|]. rewrite Z0. split; [intros o H; lia|]. auto.
    - assert (F : forallb (fun i => like (cells m (fst p) (snd p + i)) (cells m (fst q) (snd q + i))) (offsets (size t)) = true).
      { apply forallb_forall. intros i I. apply offsets_in in I. eapply like_trans; apply like_alike; eauto. }
      rewrite F. eexists. split; [reflexivity|]. apply move_copied.
  Qed.
  (** A copied variable is a variable; others remain *)
  Lemma copied_var : forall t m m' p q, is_var m t q -> copied m m' p q (size t) -> is_var m' t p.
  Proof. intros t m m' p q V (C & _) o H. rewrite C by exact H. auto. Qed.

  Lemma assert_ok : forall t p, assertType ptrTo t (Some (ptrTo t, p)) = Done p.
  Proof. intros t p. unfold assertType. now rewrite Nat.eqb_refl. Qed.
  Lemma assert_done : forall t obj p, assertType ptrTo t obj = Done p -> obj = Some (ptrTo t, p).
  Proof. intros t [[u d]|] p H; [|discriminate]. cbn in H. destruct (Nat.eqb_spec u (ptrTo t)); [|discriminate]. congruence. Qed.
  Lemma elem_ok : forall t p, elemOf kinds (Some (ptrTo t, Some p)) = Done (Some (t, p)).
  Proof. intros t p. unfold elemOf. now rewrite kinds_ptr. Qed.

  Lemma assign_same : forall m t p q, assign kinds size assignable implements isDirect m t p t q = typedmemmove size t m (Some p) (Some q).
  Proof. intros. unfold assign. now rewrite Nat.eqb_refl. Qed.

  Lemma fieldByIndex_step : forall m u p i j r, fieldByIndex kinds m u p (i :: j :: r) =
    match kinds u with
    | GStruct fs =>
      match nth_error fs i with
      | None => Panics
      | Some f =>
        match kinds (m_type f) with
        | GPtr s =>
          match kinds s with
          | GStruct _ => bind (loadPtr m (Some (plus p (m_offset f)))) (fun d => match d with Some d => fieldByIndex kinds m s d (j :: r) | None => Panics end)
          | _ => Panics
          end
        | _ => fieldByIndex kinds m (m_type f) (plus p (m_offset f)) (j :: r)
        end
      end
    | _ => Panics
    end.
  Proof. reflexivity. Qed.
  Lemma fieldByIndex_ok : forall m t p path g q, selects m t p path g q -> fieldByIndex kinds m t p path = Done (m_type g, q, Some g).
  Proof.
    intros m t p path g q H. induction H as [t p i fs f K N|t p i j r fs fs' f g q K N K' H IH|t p i j r fs fs' f s d g q K N KP KS A H IH].
    - cbn [fieldByIndex]. rewrite K, N. reflexivity.
    - rewrite fieldByIndex_step, K, N, K'. exact IH.
    - rewrite fieldByIndex_step, K, N, KP, KS, (loadPtr_at _ _ _ A). cbn [bind]. exact IH.
  Qed.

  Lemma plus_plus : forall p a b, plus (plus p a) b = plus p (a + b).
  Proof. intros [b o] a c. unfold plus. cbn. f_equal. lia. Qed.
End Proofs.
