From Verif Require Import Base SpewModel SpewSpec SpewProofs SpewProofs2.
Open Scope Z_scope.
Open Scope list_scope.
From Coq Require Import Permutation Lia.

(** ** Sorted permutations are unique *)
Lemma sorted_unique {A} (less : A -> A -> bool) : forall l l', Permutation l l' -> sorted less l -> sorted less l' -> orders less l -> l = l'.
Proof.
  induction l as [|x l IH]; intros l' P S1 S2 O.
  - apply Permutation_nil in P. subst. reflexivity.
  - destruct l' as [|y l']; [apply Permutation_sym, Permutation_nil in P; discriminate|].
    inversion S1 as [|x0 l0 F1 S1']; subst. inversion S2 as [|y0 l0' F2 S2']; subst. destruct O as (IR & TR & TO).
    assert (Iy : In y (x :: l)) by (eapply Permutation_in; [apply Permutation_sym, P|left; reflexivity]).
    assert (Ix : In x (y :: l')) by (eapply Permutation_in; [exact P|left; reflexivity]).
    assert (x = y).
    { destruct Iy as [E|Iy]; [exact E|]. destruct Ix as [E|Ix]; [auto|]. apply TO; [left; reflexivity|right; exact Iy|apply F2, Ix|apply F1, Iy]. }
    subst y. f_equal. apply IH; auto; [eapply Permutation_cons_inv; exact P|]. repeat split.
    + intros z I. apply IR. right. exact I.
    + intros a b c Ia Ib Ic. apply TR; right; assumption.
    + intros a b Ia Ib. apply TO; right; assumption.
Qed.
Lemma sorted_ext {A} (f g : A -> A -> bool) l : (forall a b, f a b = g a b) -> sorted f l -> sorted g l.
Proof. intros E. induction 1 as [|x l F S IH]; constructor; [intros y I; rewrite <- E; auto|exact IH]. Qed.
Lemma orders_ext {A} (f g : A -> A -> bool) l : (forall a b, f a b = g a b) -> orders f l -> orders g l.
Proof. intros E (A1 & A2 & A3). repeat split; intros *; rewrite <- ?E; eauto. Qed.
Lemma orders_perm {A} (f : A -> A -> bool) l l' : Permutation l l' -> orders f l -> orders f l'.
Proof.
  intros P (A1 & A2 & A3). apply Permutation_sym in P. repeat split.
  - intros x I. apply A1. eapply Permutation_in; eauto.
  - intros x y z Ix Iy Iz. apply A2; eapply Permutation_in; eauto.
  - intros x y Ix Iy. apply A3; eapply Permutation_in; eauto.
Qed.

(** ** The order of strings *)
Lemma bytesLess_irrefl a : bytesLess a a = false.
Proof. induction a as [|x a IH]; [reflexivity|]. cbn [bytesLess]. rewrite Z.ltb_irrefl, Z.eqb_refl. exact IH. Qed.
Lemma bytesLess_trans : forall a b c, bytesLess a b = true -> bytesLess b c = true -> bytesLess a c = true.
Proof.
  induction a as [|x a IH]; intros [|y b] [|z c] H1 H2; try discriminate; try reflexivity. cbn [bytesLess] in *.
  apply orb_true_iff in H1, H2. apply orb_true_iff. destruct H1 as [H1|H1].
  - apply Z.ltb_lt in H1. destruct H2 as [H2|H2]; [apply Z.ltb_lt in H2; left; apply Z.ltb_lt; lia|]. apply andb_true_iff in H2. destruct H2 as [H2 _]. apply Z.eqb_eq in H2. subst. left. apply Z.ltb_lt. exact H1.
  - apply andb_true_iff in H1. destruct H1 as [E1 H1]. apply Z.eqb_eq in E1. subst. destruct H2 as [H2|H2]; [left; exact H2|]. apply andb_true_iff in H2. destruct H2 as [E2 H2]. right. apply andb_true_iff. split; [exact E2|eauto].
Qed.
Lemma bytesLess_total : forall a b, bytesLess a b = false -> bytesLess b a = false -> a = b.
Proof.
  induction a as [|x a IH]; intros [|y b] H1 H2; try discriminate; try reflexivity. cbn [bytesLess] in *.
  apply orb_false_iff in H1, H2. destruct H1 as [H1 H1'], H2 as [H2 H2']. apply Z.ltb_ge in H1, H2. assert (x = y) by lia. subst. rewrite Z.eqb_refl in *. f_equal. auto.
Qed.

Section Order.
  Variable valueEq : sval -> sval -> bool.
  Hypothesis eqKeys : forall a b, sameKind a b -> (valueEq a b = true <-> a = b).
  Notation less := (valueSortLess valueEq).

  (** Induction through arrays *)
  Section Induction.
    Variable P : sval -> Prop.
    Hypothesis Harr : forall ty l, Forall P l -> P (SArr ty l).
    Hypothesis Hother : forall v, (forall ty l, v <> SArr ty l) -> P v.
    Fixpoint arr_ind (v : sval) : P v.
    Proof.
      destruct v as [ty k|ty p|ty w|ty l|ty c s|ty c b|ty m|ty fs]; try (apply Hother; intros; discriminate).
      apply Harr. exact ((fix go (l : list sval) : Forall P l := match l with [] => Forall_nil P | x :: l => Forall_cons x (arr_ind x) (go l) end) l).
    Qed.
  End Induction.
  Definition arrLess (t : bytes) := fix go (la lb : list sval) {struct la} : bool :=
    match la, lb with
    | av :: la, bv :: lb => if valueEq av bv then go la lb else less av bv
    | _, _ => false
    end.
  Lemma less_arr t la lb : sameKinds la lb -> less (SArr t la) (SArr t lb) = arrLess t la lb.
  Proof.
    intros K. cbn [valueSortLess]. generalize (bytesLess_irrefl (valueText (SArr t la))). change (valueText (SArr t la)) with (valueText (SArr t lb)) at 2.
    generalize (bytesLess (valueText (SArr t la)) (valueText (SArr t lb))). intros b ->. induction K as [|a b' l l' K1 K2 IH]; [reflexivity|]. cbn [arrLess]. destruct (valueEq a b'); [exact IH|reflexivity].
  Qed.
  Lemma sameKind_sym : forall a b, sameKind a b -> sameKind b a.
  Proof.
    intros a. induction a as [ty l IH|v Hv] using arr_ind; intros b K; inversion K; subst; try constructor; try (exfalso; eapply Hv; reflexivity).
    clear K. match goal with H : sameKinds l _ |- _ => rename H into K end. induction K as [|a b l l' K1 K2 IH2]; constructor; inversion IH; subst; auto.
  Qed.
  Lemma sameKinds_sym : forall l l', sameKinds l l' -> sameKinds l' l.
  Proof. induction 1; constructor; auto. apply sameKind_sym. assumption. Qed.
  Lemma less_irrefl a : sameKind a a -> less a a = false.
  Proof.
    induction a as [ty l IH|v Hv] using arr_ind; intros K.
    - inversion K; subst. rewrite less_arr by assumption. match goal with H : sameKinds l l |- _ => rename H into KS end. clear K. induction l as [|x l IHl]; [reflexivity|].
      inversion KS; subst. cbn [arrLess]. rewrite (proj2 (eqKeys x x ltac:(assumption)) eq_refl). inversion IH; subst. apply IHl; assumption.
    - inversion K; subst; cbn [valueSortLess]; try apply Z.ltb_irrefl; try apply bytesLess_irrefl; [destruct a; reflexivity|]. exfalso. eapply Hv. reflexivity.
  Qed.
  Lemma less_total a : forall b, sameKind a b -> less a b = false -> less b a = false -> a = b.
  Proof.
    induction a as [ty l IH|v Hv] using arr_ind; intros b K H1 H2.
    - inversion K as [| | | | | |t l1 l2 KS]; subst. rewrite less_arr in H1, H2 by (assumption || apply sameKinds_sym; assumption). f_equal. clear K. revert l2 KS H1 H2.
      induction l as [|x l IHl]; intros l2 KS H1 H2; inversion KS as [|x0 y l0 l3 K1 K2]; subst; [reflexivity|]. inversion IH as [|x0 l0 I1 I2]; subst. cbn [arrLess] in H1, H2.
      destruct (valueEq x y) eqn:E.
      + apply (eqKeys x y K1) in E. subst y. rewrite (proj2 (eqKeys x x K1) eq_refl) in H2. f_equal. apply IHl; assumption.
      + destruct (valueEq y x) eqn:E'; [apply (eqKeys y x (sameKind_sym _ _ K1)) in E'; subst y; rewrite (proj2 (eqKeys x x K1) eq_refl) in E; discriminate|].
        pose proof (I1 y K1 H1 H2) as X. apply (eqKeys x y K1) in X. congruence.
    - inversion K; subst; cbn [valueSortLess] in *; try (exfalso; eapply Hv; reflexivity).
      + destruct a, b0; try discriminate; reflexivity.
      + apply Z.ltb_ge in H1, H2. do 2 f_equal. lia.
      + apply Z.ltb_ge in H1, H2. do 2 f_equal. lia.
      + do 2 f_equal. apply bytesLess_total; assumption.
      + apply Z.ltb_ge in H1, H2. do 2 f_equal. lia.
      + f_equal. apply bytesLess_total; assumption.
  Qed.
  Lemma less_trans a : forall b c, sameKind a b -> sameKind b c -> sameKind a c -> less a b = true -> less b c = true -> less a c = true.
  Proof.
    induction a as [ty l IH|v Hv] using arr_ind; intros b c K1 K2 K3 H1 H2.
    - inversion K1 as [| | | | | |t l1 l2 KS1]; subst. inversion K2 as [| | | | | |t' l1' l3 KS2]; subst. inversion K3 as [| | | | | |t'' l1'' l3'' KS3]; subst. rewrite less_arr in * by assumption. clear K1 K2 K3.
      revert l2 l3 KS1 KS2 KS3 H1 H2. induction l as [|x l IHl]; intros l2 l3 KS1 KS2 KS3 H1 H2; [discriminate|]. inversion KS1 as [|x0 y l0 l2' K1 KS1']; subst. inversion KS2 as [|y0 z l0 l3' K2 KS2']; subst. inversion KS3 as [|x1 z1 l1 l3'' K3 KS3']; subst.
      inversion IH as [|x0 l0 I1 I2]; subst. cbn [arrLess] in *. destruct (valueEq x y) eqn:E1.
      + apply (eqKeys x y K1) in E1. subst y. destruct (valueEq x z) eqn:E2; [exact (IHl I2 l2' l3' KS1' KS2' KS3' H1 H2)|exact H2].
      + destruct (valueEq y z) eqn:E2.
        * apply (eqKeys y z K2) in E2. subst z. rewrite E1. exact H1.
        * pose proof (I1 y z K1 K2 K3 H1 H2) as L. destruct (valueEq x z) eqn:E3; [|exact L]. apply (eqKeys x z K3) in E3. subst z. rewrite (less_irrefl x K3) in L. discriminate.
    - inversion K1; subst; try (exfalso; eapply Hv; reflexivity); inversion K2; subst; cbn [valueSortLess] in *.
      + repeat match goal with x : bool |- _ => destruct x end; try discriminate; reflexivity.
      + apply Z.ltb_lt in H1, H2. apply Z.ltb_lt. lia.
      + apply Z.ltb_lt in H1, H2. apply Z.ltb_lt. lia.
      + eapply bytesLess_trans; eauto.
      + apply Z.ltb_lt in H1, H2. apply Z.ltb_lt. lia.
      + eapply bytesLess_trans; eauto.
  Qed.

  Variable method : sval -> option mcall.
  Variable spewKey : sval -> bytes.
  Variable cs : config.
  Notation keyLess := (keyLess method valueEq spewKey cs).
  Notation sortTexts := (sortTexts method spewKey cs).
  Lemma plain_simple l a : plainKeys l -> In a l -> canSortSimply (fst a) = true.
  Proof. intros [H|H] I; pose proof (H a a I I) as K; inversion K; reflexivity. Qed.
  Lemma plain_less l a b : plainKeys l -> In a l -> keyLess l a b = less (fst a) (fst b).
  Proof. intros H I. destruct l as [|[k x] l]; [destruct I|]. unfold SpewModel.keyLess. pose proof (plain_simple _ (k, x) H (or_introl eq_refl)) as E. cbn [fst] in E. rewrite E. reflexivity. Qed.
  Lemma plain_orders l : plainKeys l -> distinctKeys l -> orders (keyLess l) l.
  Proof.
    intros H D. repeat split.
    - intros x I. rewrite (plain_less l) by assumption. destruct H as [H|H]; [apply less_irrefl; auto|]. pose proof (H x x I I) as K. inversion K. cbn. apply Z.ltb_irrefl.
    - intros x y z Ix Iy Iz. rewrite !(plain_less l) by assumption. destruct H as [H|H]; [apply less_trans; auto|].
      pose proof (H x y Ix Iy) as K1. pose proof (H y z Iy Iz) as K2. destruct x as [kx vx], y as [ky vy], z as [kz vz]. cbn [fst] in *. destruct K1. inversion K2; subst. cbn. rewrite !Z.ltb_lt. lia.
    - intros x y Ix Iy. rewrite !(plain_less l) by assumption. destruct H as [H|H]; [intros H1 H2; apply D; auto; apply less_total; auto|].
      pose proof (H x y Ix Iy) as K1. intros L1 L2. apply D; auto. destruct K1 as [t tx a ty b Q]. cbn in L1, L2. apply Z.ltb_ge in L1, L2. assert (a = b) by lia. subst. destruct Q as [Q|Q]; [congruence|]. subst. reflexivity.
  Qed.
  Lemma plain_oneKind l : plainKeys l -> (forall a b, In a l -> In b l -> arrayKey (fst a) = arrayKey (fst b)) -> oneKind l.
  Proof. intros H K a b Ia Ib. rewrite !(plain_simple l) by assumption. auto. Qed.
  Lemma plain_arrayKey l : plainKeys l -> forall a b, In a l -> In b l -> arrayKey (fst a) = arrayKey (fst b).
  Proof. intros [H|H] a b Ia Ib; pose proof (H a b Ia Ib) as K; [|destruct K; reflexivity]. inversion K as [| | | | | |t l1 l2 KS]; try reflexivity. inversion KS; reflexivity. Qed.
  (** Keys sorted by texts *)
  Lemma texts_orders l f : (forall a, In a l -> canSortSimply (fst a) = false) -> sortTexts l = Some f -> (forall a b, In a l -> In b l -> f (fst a) = f (fst b) -> a = b) -> orders (keyLess l) l.
  Proof.
    intros NS ST D. assert (E : forall a b, In a l -> keyLess l a b = bytesLess (f (fst a)) (f (fst b))).
    { intros a b I. unfold SpewModel.keyLess. destruct l as [|[k x] l]; [destruct I|]. pose proof (NS (k, x) (or_introl eq_refl)) as E. cbn [fst] in E. rewrite E, ST. reflexivity. }
    repeat split; intros *.
    - intros I. rewrite E by exact I. apply bytesLess_irrefl.
    - intros Ix Iy Iz. rewrite !E by assumption. apply bytesLess_trans.
    - intros Ix Iy. rewrite !E by assumption. intros H1 H2. apply D; auto. apply bytesLess_total; assumption.
  Qed.

  Lemma forallb_perm {A} (f : A -> bool) l l' : Permutation l l' -> forallb f l = forallb f l'.
  Proof. induction 1 as [|x l l' _ IH|x y l|l1 l2 l3 _ IH1 _ IH2]; cbn; [reflexivity|rewrite IH; reflexivity|destruct (f x), (f y); reflexivity|congruence]. Qed.
  Lemma keyLess_perm l l' : Permutation l l' -> oneKind l -> forall a b, keyLess l a b = keyLess l' a b.
  Proof.
    intros P K a b. destruct l as [|[k x] l]; [apply Permutation_nil in P; subst; reflexivity|]. destruct l' as [|[k' x'] l']; [apply Permutation_sym, Permutation_nil in P; discriminate|].
    unfold SpewModel.keyLess. destruct (K (k, x) (k', x')) as [E _]; [left; reflexivity|eapply Permutation_in; [apply Permutation_sym, P|left; reflexivity]|]. cbn [fst] in E. change byValue with canSortSimply in E. rewrite E.
    unfold SpewModel.sortTexts. rewrite (forallb_perm _ _ _ P). reflexivity.
  Qed.
  Variable sortBy : (entry -> entry -> bool) -> list entry -> list entry.
  Hypothesis srt : sorts sortBy.
  Lemma sortValues_perm ro l l' : Permutation l l' -> oneKind l -> orders (keyLess l) l -> sortValues method valueEq spewKey sortBy cs ro l = sortValues method valueEq spewKey sortBy cs ro l'.
  Proof.
    intros P K O. assert (MAIN : sortBy (keyLess l) l = sortBy (keyLess l') l').
    { pose proof (keyLess_perm _ _ P K) as EL. destruct (srt (keyLess l) l) as [P1 S1]. destruct (srt (keyLess l') l') as [P2 S2].
      apply (sorted_unique (keyLess l)).
      - eapply Permutation_trans; [exact P1|]. eapply Permutation_trans; [exact P|]. apply Permutation_sym, P2.
      - apply S1, O.
      - eapply sorted_ext; [intros; symmetry; apply EL|]. apply S2. eapply orders_ext; [apply EL|]. eapply orders_perm; [exact P|exact O].
      - eapply orders_perm; [apply Permutation_sym, P1|exact O]. }
    destruct l as [|[k x] l]; [apply Permutation_nil in P; subst; reflexivity|]. destruct l' as [|[k' x'] l']; [apply Permutation_sym, Permutation_nil in P; discriminate|].
    unfold sortValues. destruct (K (k, x) (k', x')) as [E1 E2]; [left; reflexivity|eapply Permutation_in; [apply Permutation_sym, P|left; reflexivity]|]. cbn [fst] in E1, E2.
    assert (EP : forall k (l : list entry), match k with SArr _ (_ :: _) | SHex _ _ _ => (1 <? List.length l)%nat | _ => false end = arrayKey k && (1 <? List.length l)%nat)
      by (intros [| | |? []| | | |] ?; reflexivity).
    change byValue with canSortSimply in *; rewrite !EP, E1, E2, (forallb_perm _ _ _ P), (Permutation_length P).
    match goal with |- (if ?b then _ else _) = (if ?c then _ else _) => change c with b; destruct b end; [reflexivity|]. f_equal. exact MAIN.
  Qed.

  (** ** The text of Dump does not depend on the order of maps *)
  Variable decimal : Z -> bytes.
  Variable quote : bytes -> bytes.
  Variable hexDump : bytes -> bytes.
  Notation dump := (dump decimal quote hexDump method valueEq spewKey sortBy cs).
  Lemma chase_cells h h' d : (forall c, cell h' c = cell h c) -> forall fuel m v i l, chase h' fuel d m v i l = chase h fuel d m v i l.
  Proof.
    intros C. induction fuel as [|fuel IH]; intros m v i l; [reflexivity|]. cbn [chase]. destruct v as [ty k|ty [[a x]|]|ty w|ty l'|ty k s|ty k b|ty x|ty fs]; try reflexivity. rewrite C.
    destruct (above d a m); [reflexivity|]. destruct (cell h x) as [| |ty' [w|]| | | | |]; try apply IH; reflexivity.
  Qed.
  Lemma sliceLoop_ext d d' : (forall v st, d v st = d' v st) -> forall l st, sliceLoop d l st = sliceLoop d' l st.
  Proof. intros E. induction l as [|v l IH]; intros st; [reflexivity|]. cbn [sliceLoop]. rewrite E. destruct (d' (unpackValue v) st); cbn [dbind]; [|reflexivity|reflexivity]. destruct l; [reflexivity|apply IH]. Qed.
  Lemma structLoop_ext d d' : (forall ro v st, d ro v st = d' ro v st) -> forall ro l st, structLoop cs d ro l st = structLoop cs d' ro l st.
  Proof. intros E ro. induction l as [|[[n e] v] l IH]; intros st; [reflexivity|]. cbn [structLoop]. rewrite E. destruct (d' _ _ _); cbn [dbind]; [|reflexivity|reflexivity]. destruct l; [reflexivity|apply IH]. Qed.
  Lemma mapLoop_ext d d' : (forall v st, d v st = d' v st) -> forall l st, mapLoop d l st = mapLoop d' l st.
  Proof.
    intros E. induction l as [|[k v] l IH]; intros st; [reflexivity|]. cbn [mapLoop]. rewrite E. destruct (d' (unpackValue k) st) as [s| |]; cbn [dbind]; [|reflexivity|reflexivity].
    destruct v as [v|]; [rewrite E; destruct (d' _ _)|]; cbn [dbind]; try reflexivity; (destruct l; [reflexivity|apply IH]).
  Qed.
  Lemma braces_ext b b' : (forall st, b st = b' st) -> forall st, braces cs b st = braces cs b' st.
  Proof. intros E st. unfold braces. destruct (negb (MaxDepth cs =? 0)%nat && _); [reflexivity|]. rewrite E. reflexivity. Qed.
  Lemma dump_reordered h h' : reordered h h' -> SortKeys cs = true -> (forall r, oneKind (entries h r) /\ orders (keyLess (entries h r)) (entries h r)) ->
    forall fuel ro v st, dump h fuel ro v st = dump h' fuel ro v st.
  Proof.
    intros (RC & RE & RM) SK G. induction fuel as [|fuel IH]; intros ro v st; [reflexivity|]. rewrite !dump_step. unfold step.
    assert (EH : heading1 decimal method cs h v st = heading1 decimal method cs h' v st).
    { unfold heading1. do 2 f_equal. unfold lengthText. replace (lengths h' v) with (lengths h v); [reflexivity|]. destruct v as [? []| | | |? ? []| |? []|]; cbn [lengths]; try reflexivity; rewrite ?RE; try reflexivity.
      unfold lenZ. rewrite (Permutation_length (RM z)). reflexivity. }
    rewrite <- EH. destruct v as [ty k|ty p|ty w|ty l|ty c s|ty c b|ty m|ty fs]; try reflexivity.
    - unfold dumpPtr. cbv zeta. rewrite (chase_cells _ _ _ RC). destruct (chase h fuel _ _ _ _ _) as [c|]; [|reflexivity]. destruct (cNil c); [reflexivity|]. destruct (cCycle c); [reflexivity|]. rewrite IH. reflexivity.
    - destruct (snd _); [reflexivity|]. apply braces_ext. apply sliceLoop_ext, IH.
    - destruct (snd _); [reflexivity|]. destruct s as [r|]; [|reflexivity]. rewrite RE. apply braces_ext. apply sliceLoop_ext, IH.
    - destruct (snd _); [reflexivity|]. destruct m as [r|]; [|reflexivity]. apply braces_ext. intros st0. rewrite SK. destruct (G r) as [K O]. rewrite (sortValues_perm ro _ _ (Permutation_sym (RM r)) K O).
      destruct (sortValues _ _ _ _ _ _ _); [|reflexivity]. apply mapLoop_ext, IH.
    - destruct (snd _); [reflexivity|]. apply braces_ext. apply structLoop_ext. exact IH.
  Qed.
End Order.
