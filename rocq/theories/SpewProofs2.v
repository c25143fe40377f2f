From Verif Require Import Base SpewModel SpewSpec SpewProofs.
Open Scope Z_scope.
Open Scope list_scope.
From Coq Require Import Permutation Lia.

(** ** "<already shown>" is said of addresses shown before *)
Definition inH (hist : list event) (a : Z) : Prop := exists k, In (EAddr a k) hist.
Definition Good (hist : list event) (m : list (bool * Z)) (hist' : list event) : Prop :=
  (forall a, inH hist' a <-> inH hist a \/ In (true, a) m) /\ (forall l1 a l2, m = l1 ++ (false, a) :: l2 -> inH hist a \/ In (true, a) l1).
Lemma app_split {A} (m1 m2 l1 l2 : list A) x : m1 ++ m2 = l1 ++ x :: l2 -> (exists l, m1 = l1 ++ x :: l) \/ (exists l, l1 = m1 ++ l /\ m2 = l ++ x :: l2).
Proof.
  revert l1. induction m1 as [|y m1 IH]; intros l1 E; [right; exists l1; auto|]. destruct l1 as [|z l1].
  - injection E as -> _. left. exists m1. reflexivity.
  - injection E as -> E. destruct (IH _ E) as [[l ->]|[l [-> ->]]]; [left; exists l; reflexivity|right; exists l; auto].
Qed.
Lemma Good_nil hist : Good hist [] hist.
Proof. split; [intros a; cbn; tauto|]. intros [|] a l2 E; discriminate. Qed.
Lemma Good_app h1 m1 h2 m2 h3 : Good h1 m1 h2 -> Good h2 m2 h3 -> Good h1 (m1 ++ m2) h3.
Proof.
  intros [A1 B1] [A2 B2]. split.
  - intros a. rewrite A2, A1, in_app_iff. tauto.
  - intros l1 a l2 E. destruct (app_split _ _ _ _ _ E) as [[l ->]|[l [-> ->]]].
    + eapply B1; reflexivity.
    + destruct (B2 _ _ _ eq_refl) as [I|I]; [apply A1 in I; destruct I; [auto|right; apply in_or_app; auto]|right; apply in_or_app; auto].
Qed.
Lemma Good_visit hist d m hist' : Good (EVisit d :: hist) m hist' -> Good hist m hist'.
Proof.
  assert (E : forall a, inH (EVisit d :: hist) a <-> inH hist a) by (intros a; split; intros [k I]; exists k; [destruct I; [discriminate|assumption]|right; assumption]).
  intros [A B]. split; [intros a; rewrite A, E; reflexivity|]. intros l1 a l2 X. rewrite <- E. eapply B; eauto.
Qed.
Lemma Good_addr hist a d m hist' : Good (EAddr a d :: hist) m hist' -> Good hist ((true, a) :: m) hist'.
Proof.
  intros G. change ((true, a) :: m) with ([(true, a)] ++ m). eapply Good_app; [|exact G]. split.
  - intros b. split; [intros [k [E|I]]; [injection E as -> ->; cbn; auto|left; exists k; auto]|]. intros [[k I]|[E|[]]]; [exists k; right; exact I|]. injection E as ->. exists d. left. reflexivity.
  - intros l1 b l2 E. destruct l1 as [|x [|y l1]]; discriminate.
Qed.
Lemma chain_good h d hist v l e hist' : chain h d hist v l e hist' ->
  Good hist (match e with CShown _ => map (pair true) (removelast l) ++ [(false, last l 0)] | _ => map (pair true) l end) hist'.
Proof.
  induction 1 as [hist v P|hist ty|hist ty a c SH|hist ty a c ty' NS E|hist ty a c l e hist' NS E CH IH].
  - apply Good_nil.
  - apply Good_nil.
  - cbn. split; [intros b; cbn; split; [auto|intros [X|[X|[]]]; [exact X|discriminate]]|]. intros l1 b l2 E. destruct SH as (k & _ & (x & y & -> & _)).
    destruct l1 as [|? [|? ?]]; [|discriminate|discriminate]. injection E as <- _. left. exists k. apply in_or_app. right. left. reflexivity.
  - cbn. eapply Good_addr. apply Good_nil.
  - apply Good_addr in IH. destruct e; try exact IH. assert (l <> []) by (inversion CH; discriminate). destruct l as [|b l]; [congruence|].
    change (removelast (a :: b :: l)) with (a :: removelast (b :: l)). change (last (a :: b :: l) 0) with (last (b :: l) 0). exact IH.
Qed.
Section Shown.
  Variable decimal : Z -> bytes.
  Variable quote : bytes -> bytes.
  Variable method : sval -> option mcall.
  Variable cs : config.
  Variable h : heap.
  Scheme unfold_min := Minimality for unfold Sort Prop
    with unfoldParts_min := Minimality for unfoldParts Sort Prop
    with unfoldLabel_min := Minimality for unfoldLabel Sort Prop.
  Lemma unfold_good d hist v t hist' : unfold decimal quote method cs h d hist v t hist' -> Good hist (marks t) hist'.
  Proof.
    intros U. refine (unfold_min decimal quote method cs h (fun d hist v t hist' => Good hist (marks t) hist')
      (fun d hist l ts hist' => Good hist (flat_map (fun x => match fst x with LKey k => marks k | _ => [] end ++ marks (snd x)) ts) hist')
      (fun d hist p lab hist' => Good hist (match lab with LKey k => marks k | _ => [] end) hist') _ _ _ _ _ _ _ _ _ _ _ _ _ _ d hist v t hist' U); clear; intros; try apply Good_nil; try assumption.
    - apply (chain_good _ _ _ _ _ (CNil ty)) in H0. eapply Good_visit. exact H0.
    - apply (chain_good _ _ _ _ _ (CShown ty)) in H0. eapply Good_visit. exact H0.
    - apply (chain_good _ _ _ _ _ (CValue w)) in H0. eapply Good_visit. cbn [marks]. eapply Good_app; [exact H0|exact H2].
    - cbn [flat_map fst snd]. rewrite <- app_assoc. eapply Good_app; [eassumption|]. eapply Good_app; eassumption.
  Qed.
End Shown.

(** ** More fuel does not change the result *)
Definition dle (d d' : sval -> dst -> dres) : Prop := forall v st, d v st <> DHang -> d' v st = d v st.
Lemma chase_S h d : forall fuel m v i l c, chase h fuel d m v i l = Some c -> chase h (S fuel) d m v i l = Some c.
Proof.
  induction fuel as [|fuel IH]; intros m v i l c E; [discriminate|]. remember (S fuel) as g eqn:G. cbn [chase]. subst g. cbn [chase] in E.
  destruct v as [ty k|ty [[a x]|]|ty w|ty l'|ty k s|ty k b|ty x|ty fs]; try exact E. destruct (above d a m); [exact E|].
  destruct (cell h x) as [| |ty' [w|]| | | | |]; try (apply IH; exact E); exact E.
Qed.
Lemma sliceLoop_le d d' : dle d d' -> forall l st, sliceLoop d l st <> DHang -> sliceLoop d' l st = sliceLoop d l st.
Proof.
  intros L. induction l as [|v l IH]; intros st N; [reflexivity|]. cbn [sliceLoop] in *. destruct (d (unpackValue v) st) as [s| |] eqn:E; cbn [dbind] in N; [| |congruence];
    rewrite (L (unpackValue v) st) by congruence; rewrite E; cbn [dbind]; [|reflexivity]. destruct l; [reflexivity|]. apply IH. exact N.
Qed.
Lemma structLoop_le cs d d' : (forall ro, dle (d ro) (d' ro)) -> forall ro l st, structLoop cs d ro l st <> DHang -> structLoop cs d' ro l st = structLoop cs d ro l st.
Proof.
  intros L ro. induction l as [|[[n e] v] l IH]; intros st N; [reflexivity|]. cbn [structLoop] in *.
  match type of N with dbind ?x _ <> _ => destruct x as [s| |] eqn:E end; cbn [dbind] in N; [| |congruence];
    rewrite (L (ro || negb e) (unpackValue v)) by congruence; rewrite E; cbn [dbind]; [|reflexivity]. destruct l; [reflexivity|]. apply IH. exact N.
Qed.
Lemma mapLoop_le d d' : dle d d' -> forall l st, mapLoop d l st <> DHang -> mapLoop d' l st = mapLoop d l st.
Proof.
  intros L. induction l as [|[k v] l IH]; intros st N; [reflexivity|]. cbn [mapLoop] in *. destruct (d (unpackValue k) st) as [s| |] eqn:E; cbn [dbind] in N; [| |congruence];
    rewrite (L (unpackValue k) st) by congruence; rewrite E; cbn [dbind]; [|reflexivity].
  destruct v as [v|]; cbn [dbind] in *; [|destruct l; [reflexivity|]; apply IH; exact N].
  match type of N with dbind ?x _ <> _ => destruct x as [s2| |] eqn:E2 end; cbn [dbind] in N; [| |congruence];
    rewrite (L (unpackValue v)) by congruence; rewrite E2; cbn [dbind]; [|reflexivity]. destruct l; [reflexivity|]. apply IH. exact N.
Qed.
Lemma braces_le cs b b' : (forall st, b st <> DHang -> b' st = b st) -> forall st, braces cs b st <> DHang -> braces cs b' st = braces cs b st.
Proof.
  intros L st N. unfold braces in *. destruct (negb (MaxDepth cs =? 0)%nat && _); [reflexivity|]. match type of N with dbind ?x _ <> _ => destruct x as [s| |] eqn:E end; cbn [dbind] in N; [| |congruence];
    rewrite L by congruence; rewrite E; reflexivity.
Qed.

Section Ends.
  Variable decimal : Z -> bytes.
  Variable quote : bytes -> bytes.
  Variable hexDump : bytes -> bytes.
  Variable method : sval -> option mcall.
  Variable valueEq : sval -> sval -> bool.
  Variable spewKey : sval -> bytes.
  Variable sortBy : (entry -> entry -> bool) -> list entry -> list entry.
  Variable cs : config.
  Variable h : heap.
  Notation dump := (dump decimal quote hexDump method valueEq spewKey sortBy cs h).

  (** One call of dump *)
  Definition heading1 (v : sval) (st : dst) : dst :=
    dw (fst (match v with SIface _ _ => ([], false) | _ => if negb (DisableMethods cs) then handleMethods method cs v else ([], false) end)) (dw (lengthText decimal cs h v)
      (dSetT false (if negb (dIgnT st) then dw (bs "(" ++ typeText v ++ bs ") ") (indent cs st) else st))).
  Definition step (d : bool -> sval -> dst -> dres) (fuel : nat) (ro : bool) (v : sval) (st : dst) : dres :=
    match v with
    | SPtr _ _ => dumpPtr cs h (d ro) fuel v (indent cs st)
    | _ =>
      if snd (match v with SIface _ _ => ([], false) | _ => if negb (DisableMethods cs) then handleMethods method cs v else ([], false) end) then DEnd (heading1 v st) else
        match v with
        | SBasic _ k => DEnd (dw (basicText decimal quote k) (heading1 v st))
        | SPtr _ _ => DEnd (heading1 v st)
        | SIface _ None => DEnd (dw (bs "<nil>") (heading1 v st))
        | SIface _ (Some _) => DEnd (heading1 v st)
        | SSlice _ _ None | SMap _ None => DEnd (dw (bs "<nil>") (heading1 v st))
        | SSlice _ _ (Some r) => braces cs (sliceLoop (d ro) (elems h r)) (heading1 v st)
        | SArr _ l => braces cs (sliceLoop (d ro) l) (heading1 v st)
        | SHex _ _ b => braces cs (fun st => DEnd (dw (hexdumpText hexDump cs (dDepth st) b) st)) (heading1 v st)
        | SMap _ (Some r) =>
          braces cs (fun st =>
            match (if SortKeys cs then sortValues method valueEq spewKey sortBy cs ro (entries h r) else Some (entries h r)) with
            | None => DPanic
            | Some l => mapLoop (d ro) l st
            end) (heading1 v st)
        | SStruct _ fs => braces cs (structLoop cs d ro fs) (heading1 v st)
        end
    end.
  Lemma dump_step fuel ro v st : dump (S fuel) ro v st = step (dump fuel) fuel ro v st.
  Proof. reflexivity. Qed.
  Lemma heading1_same v st : dDepth (heading1 v st) = dDepth st /\ dPtrs (heading1 v st) = dPtrs st.
  Proof. unfold heading1. destruct (dIgnT st); cbn [negb]; [split; reflexivity|]. unfold indent. destruct (dIgnI st); split; reflexivity. Qed.
  Lemma dump_S : forall fuel ro, dle (dump fuel ro) (dump (S fuel) ro).
  Proof.
    induction fuel as [|fuel IH]; intros ro v st N; [exfalso; apply N; reflexivity|]. rewrite (dump_step (S fuel)), (dump_step fuel). rewrite (dump_step fuel) in N. unfold step in *.
    destruct v as [ty k|ty p|ty w|ty l|ty c s|ty c b|ty m|ty fs].
    - destruct (snd _); reflexivity.
    - unfold dumpPtr in *. cbv zeta in *. destruct (chase h fuel (dDepth (indent cs st)) (forget (dDepth (indent cs st)) (dPtrs (indent cs st))) (SPtr ty p) 0 []) as [c|] eqn:C; [|exfalso; apply N; reflexivity].
      rewrite (chase_S _ _ _ _ _ _ _ _ C). destruct (cNil c); [reflexivity|]. destruct (cCycle c); [reflexivity|].
      match type of N with dbind ?x _ <> _ => destruct x as [s| |] eqn:E end; cbn [dbind] in N; [| |congruence]; rewrite (IH ro) by congruence; rewrite E; reflexivity.
    - destruct (snd _); reflexivity.
    - destruct (snd _); [reflexivity|]. apply braces_le; [|exact N]. intros st0. apply sliceLoop_le, IH.
    - destruct (snd _); [reflexivity|]. destruct s as [r|]; [|reflexivity]. apply braces_le; [|exact N]. intros st0. apply sliceLoop_le, IH.
    - destruct (snd _); reflexivity.
    - destruct (snd _); [reflexivity|]. destruct m as [r|]; [|reflexivity]. apply braces_le; [|exact N]. intros st0. destruct (if SortKeys cs then _ else _); [|reflexivity]. apply mapLoop_le, IH.
    - destruct (snd _); [reflexivity|]. apply braces_le; [|exact N]. intros st0. apply structLoop_le. exact IH.
  Qed.
  Lemma dump_le f g ro : (f <= g)%nat -> dle (dump f ro) (dump g ro).
  Proof. induction 1 as [|g L IH]; intros v st N; [reflexivity|]. rewrite (dump_S g ro) by (rewrite IH; auto). apply IH. exact N. Qed.
  Lemma chase_le f g d m v i l c : (f <= g)%nat -> chase h f d m v i l = Some c -> chase h g d m v i l = Some c.
  Proof. induction 1; intros E; [exact E|]. apply chase_S. auto. Qed.

  (** ** What stays in the map of pointers *)
  Definition kept (d : nat) (m m' : ptrs) : Prop := forall a k, (k < d)%nat -> (In (a, k) m' <-> In (a, k) m).
  Lemma kept_refl d m : kept d m m. Proof. intros a k _. reflexivity. Qed.
  Lemma kept_trans d m1 m2 m3 : kept d m1 m2 -> kept d m2 m3 -> kept d m1 m3.
  Proof. intros A B a k L. rewrite (B a k L). apply A, L. Qed.
  Lemma kept_less d d' m m' : (d' <= d)%nat -> kept d m m' -> kept d' m m'.
  Proof. intros L K a k Hk. apply K. lia. Qed.
  Lemma kept_above d m m' a : kept d m m' -> above d a m' = above d a m.
  Proof.
    intros K. destruct (above d a m) eqn:A.
    - apply above_spec in A. destruct A as (k & L & I). apply above_spec. exists k. split; [exact L|]. apply K; assumption.
    - apply not_true_is_false. intros A'. apply above_spec in A'. destruct A' as (k & L & I). assert (above d a m = true); [|congruence]. apply above_spec. exists k. split; [exact L|]. apply (K a k L). exact I.
  Qed.
  Lemma kept_forget d m : kept d m (forget d m).
  Proof. intros a k L. rewrite In_forget. tauto. Qed.
  Lemma kept_put d a m : above d a m = false -> kept d m (put d a m).
  Proof.
    intros A b k L. rewrite In_put. split; [intros [[_ ->]|[_ I]]; [lia|exact I]|]. intros I. right. split; [|exact I]. intros ->.
    assert (above d a m = true) by (apply above_spec; eauto). congruence.
  Qed.
  Lemma chase_kept d : forall fuel m v i l c, chase h fuel d m v i l = Some c -> kept d m (cPtrs c) /\ (forall a, above (S d) a m = true -> above (S d) a (cPtrs c) = true).
  Proof.
    induction fuel as [|fuel IH]; intros m v i l c E; [discriminate|]. cbn [chase] in E.
    destruct v as [ty k|ty [[a x]|]|ty w|ty l'|ty k s|ty k b|ty x|ty fs]; try (injection E as <-; split; [apply kept_refl|auto]; fail).
    destruct (above d a m) eqn:A; [injection E as <-; split; [apply kept_refl|auto]|].
    assert (P : forall b, above (S d) b m = true -> above (S d) b (put d a m) = true).
    { intros b Hb. apply above_spec in Hb. apply above_spec. destruct Hb as (k & L & I). destruct (Z.eq_dec b a) as [->|Nq]; [exists d; split; [lia|]; apply In_put; auto|]. exists k. split; [exact L|]. apply In_put. auto. }
    destruct (isNilIface (cell h x)) eqn:Ni.
    - destruct (cell h x) as [| |ty' [w|]| | | | |]; try discriminate. injection E as <-. split; [apply kept_put, A|exact P].
    - assert (E' : chase h fuel d (put d a m) (unpackValue (cell h x)) (S i) (l ++ [a]) = Some c) by (destruct (cell h x) as [| |ty' [w|]| | | | |]; try exact E; discriminate).
      apply IH in E'. destruct E' as [K P']. split; [eapply kept_trans; [apply kept_put, A|exact K]|auto].
  Qed.
  Definition same (st st' : dst) : Prop := dDepth st' = dDepth st /\ kept (dDepth st) (dPtrs st) (dPtrs st').
  Lemma same_refl st : same st st. Proof. split; [reflexivity|apply kept_refl]. Qed.
  Lemma same_eq st st' : dDepth st' = dDepth st -> dPtrs st' = dPtrs st -> same st st'. Proof. intros D P. split; [exact D|rewrite P; apply kept_refl]. Qed.
  Ltac same0 := apply same_eq; reflexivity.
  Lemma same_trans a b c : same a b -> same b c -> same a c.
  Proof. intros [A1 A2] [B1 B2]. split; [congruence|]. rewrite A1 in B2. eapply kept_trans; eauto. Qed.
  Lemma same_dw t st : same st (dw t st). Proof. same0. Qed.
  Lemma same_dSetI b st : same st (dSetI b st). Proof. same0. Qed.
  Lemma same_indent st : same st (indent cs st). Proof. unfold indent. destruct (dIgnI st); same0. Qed.
  Definition sameAll (d : sval -> dst -> dres) : Prop := forall v st st', d v st = DEnd st' -> same st st'.
  Lemma sliceLoop_same d : sameAll d -> forall l st st', sliceLoop d l st = DEnd st' -> same st st'.
  Proof.
    intros A. induction l as [|v l IH]; intros st st' E; [injection E as <-; apply same_refl|]. cbn [sliceLoop] in E. destruct (d (unpackValue v) st) as [s| |] eqn:E1; try discriminate.
    cbn [dbind] in E. apply A in E1. destruct l; [injection E as <-; (eapply same_trans; [exact E1|apply same_dw])|]. apply IH in E. eapply same_trans; [exact E1|eapply same_trans; [apply same_dw|exact E]].
  Qed.
  Lemma structLoop_same d : (forall ro, sameAll (d ro)) -> forall ro l st st', structLoop cs d ro l st = DEnd st' -> same st st'.
  Proof.
    intros A ro. induction l as [|[[n e] v] l IH]; intros st st' E; [injection E as <-; apply same_refl|]. cbn [structLoop] in E.
    match type of E with dbind ?x _ = _ => destruct x as [s| |] eqn:E1 end; try discriminate.
    cbn [dbind] in E. apply A in E1. assert (H : same st s) by (eapply same_trans; [apply same_indent|eapply same_trans; [|exact E1]; same0]). destruct l; [injection E as <-; (eapply same_trans; [exact H|apply same_dw])|]. apply IH in E. eapply same_trans; [exact H|eapply same_trans; [apply same_dw|exact E]].
  Qed.
  Lemma mapLoop_same d : sameAll d -> forall l st st', mapLoop d l st = DEnd st' -> same st st'.
  Proof.
    intros A. induction l as [|[k v] l IH]; intros st st' E; [injection E as <-; apply same_refl|]. cbn [mapLoop] in E. destruct (d (unpackValue k) st) as [s| |] eqn:E1; try discriminate.
    cbn [dbind] in E. apply A in E1. match type of E with dbind ?x _ = _ => destruct x as [s2| |] eqn:E2 end; try discriminate. cbn [dbind] in E.
    assert (H : same st s2).
    { eapply same_trans; [exact E1|]. destruct v; [apply A in E2; eapply same_trans; [|exact E2]; same0|injection E2 as <-; same0]. }
    destruct l; [injection E as <-; (eapply same_trans; [exact H|apply same_dw])|]. apply IH in E. eapply same_trans; [exact H|eapply same_trans; [apply same_dw|exact E]].
  Qed.
  Lemma braces_same b : (forall st st', b st = DEnd st' -> same st st') -> forall st st', braces cs b st = DEnd st' -> same st st'.
  Proof.
    intros A st st' E. unfold braces in E. match type of E with dbind ?x _ = _ => destruct x as [s| |] eqn:E1 end; try discriminate. cbn [dbind] in E. injection E as <-.
    assert (H : dDepth s = S (dDepth st) /\ kept (S (dDepth st)) (dPtrs st) (dPtrs s)).
    { destruct (negb (MaxDepth cs =? 0)%nat && _); [|apply A in E1; exact E1]. injection E1 as <-. unfold indent. destruct (dIgnI _); cbn; (split; [reflexivity|apply kept_refl]). }
    destruct H as [D K]. split.
    - unfold indent. destruct (dIgnI _); cbn; rewrite D; reflexivity.
    - eapply kept_less with (d := S (dDepth st)); [lia|]. unfold indent. destruct (dIgnI _); exact K.
  Qed.
  Lemma dump_same : forall fuel ro, sameAll (dump fuel ro).
  Proof.
    induction fuel as [|fuel IH]; intros ro v st st' E; [discriminate|]. rewrite dump_step in E. unfold step in E.
    assert (S0 : same st (heading1 v st)) by (destruct (heading1_same v st) as [X Y]; split; [exact X|rewrite Y; apply kept_refl]).
    destruct v as [ty k|ty p|ty w|ty l|ty c s|ty c b|ty m|ty fs];
      try (match type of E with (if ?b then _ else _) = _ => destruct b; [injection E as <-; (eapply same_trans; [exact S0|same0])|] end).
    - injection E as <-. eapply same_trans; [exact S0|same0].
    - unfold dumpPtr in E. cbv zeta in E. destruct (chase h fuel (dDepth (indent cs st)) (forget (dDepth (indent cs st)) (dPtrs (indent cs st))) (SPtr ty p) 0 []) as [c|] eqn:C; [|discriminate].
      apply chase_kept in C. destruct C as [K _]. eapply same_trans; [apply same_indent|]. revert E K. generalize (indent cs st). clear st S0. intros st E K.
      match type of E with dbind ?x _ = _ => destruct x as [s| |] eqn:E1 end; try discriminate. injection E as <-.
      eapply same_trans; [|apply same_dw]. assert (K' : kept (dDepth st) (dPtrs st) (cPtrs c)) by (eapply kept_trans; [apply kept_forget|exact K]).
      destruct (cNil c); [injection E1 as <-; destruct (_ && _); (split; [reflexivity|exact K'])|]. destruct (cCycle c); [injection E1 as <-; destruct (_ && _); (split; [reflexivity|exact K'])|].
      apply IH in E1. destruct E1 as [E1 E2]. destruct (_ && _); cbn in E1, E2; (split; [exact E1|eapply kept_trans; [exact K'|exact E2]]).
    - destruct w; injection E as <-; (eapply same_trans; [exact S0|same0]).
    - eapply same_trans; [exact S0|]. eapply braces_same; [|exact E]. intros x y. apply sliceLoop_same, IH.
    - destruct s as [r|]; [|injection E as <-; (eapply same_trans; [exact S0|same0])]. eapply same_trans; [exact S0|]. eapply braces_same; [|exact E]. intros x y. apply sliceLoop_same, IH.
    - eapply same_trans; [exact S0|]. eapply braces_same; [|exact E]. intros x y X. injection X as <-. same0.
    - destruct m as [r|]; [|injection E as <-; (eapply same_trans; [exact S0|same0])]. eapply same_trans; [exact S0|]. eapply braces_same; [|exact E]. intros x y X. destruct (if SortKeys cs then _ else _); [|discriminate].
      eapply mapLoop_same; [apply IH|exact X].
    - eapply same_trans; [exact S0|]. eapply braces_same; [|exact E]. intros x y. apply structLoop_same. exact IH.
  Qed.

  (** ** Loops end *)
  Section Loops.
    Variable Q : dst -> Prop.
    Hypothesis Qsame : forall st st', Q st -> same st st' -> Q st'.
    Definition endsAll (ro : bool) (v : sval) : Prop := forall st, Q st -> exists f, dump f ro v st <> DHang.
    Lemma sliceLoop_ends ro : forall l, (forall v, In v l -> endsAll ro (unpackValue v)) -> forall st, Q st -> exists f, sliceLoop (dump f ro) l st <> DHang.
    Proof.
      induction l as [|v l IH]; intros A st HQ; [exists O; discriminate|]. destruct (A v (or_introl eq_refl) st HQ) as (f1 & N1).
      destruct (dump f1 ro (unpackValue v) st) as [s| |] eqn:E1; [| |congruence].
      - assert (HQ1 : Q s) by (eapply Qsame; [exact HQ|eapply dump_same; exact E1]).
        destruct (IH (fun x I => A x (or_intror I)) (dw [44; 10] s)) as (f2 & N2); [eapply Qsame; [exact HQ1|apply same_dw]|]. exists (f1 + f2)%nat. cbn [sliceLoop].
        rewrite (dump_le f1 (f1 + f2) ro ltac:(lia)) by congruence. rewrite E1. cbn [dbind]. destruct l; [discriminate|].
        rewrite (sliceLoop_le _ _ (dump_le f2 (f1 + f2) ro ltac:(lia))) by exact N2. exact N2.
      - exists f1. cbn [sliceLoop]. rewrite E1. discriminate.
    Qed.
    Lemma structLoop_ends : forall l, (forall n e v, In (n, e, v) l -> forall ro, endsAll ro (unpackValue v)) -> forall ro st, Q st -> exists f, structLoop cs (dump f) ro l st <> DHang.
    Proof.
      induction l as [|[[n e] v] l IH]; intros A ro st HQ; [exists O; discriminate|].
      assert (HQ0 : Q (dSetI true (dw (n ++ bs ": ") (indent cs st)))) by (eapply Qsame; [exact HQ|eapply same_trans; [apply same_indent|same0]]).
      destruct (A n e v (or_introl eq_refl) (ro || negb e) _ HQ0) as (f1 & N1).
      destruct (dump f1 (ro || negb e) (unpackValue v) (dSetI true (dw (n ++ bs ": ") (indent cs st)))) as [s| |] eqn:E1; [| |congruence].
      - assert (HQ1 : Q s) by (eapply Qsame; [exact HQ0|eapply dump_same; exact E1]).
        destruct (IH (fun x y z I => A x y z (or_intror I)) ro (dw [44; 10] s)) as (f2 & N2); [eapply Qsame; [exact HQ1|apply same_dw]|]. exists (f1 + f2)%nat. cbn [structLoop].
        rewrite (dump_le f1 (f1 + f2) (ro || negb e) ltac:(lia)) by congruence. rewrite E1. cbn [dbind]. destruct l; [discriminate|].
        rewrite (structLoop_le cs _ _ (fun ro => dump_le f2 (f1 + f2) ro ltac:(lia))) by exact N2. exact N2.
      - exists f1. cbn [structLoop]. rewrite E1. discriminate.
    Qed.
    Lemma mapLoop_ends ro : forall l, (forall k x, In (k, x) l -> endsAll ro (unpackValue k)) -> (forall k x, In (k, Some x) l -> endsAll ro (unpackValue x)) -> forall st, Q st -> exists f, mapLoop (dump f ro) l st <> DHang.
    Proof.
      induction l as [|[k v] l IH]; intros A B st HQ; [exists O; discriminate|]. destruct (A k v (or_introl eq_refl) st HQ) as (f1 & N1).
      destruct (dump f1 ro (unpackValue k) st) as [s| |] eqn:E1; [| |congruence]; [|exists f1; cbn [mapLoop]; rewrite E1; discriminate].
      assert (HQ1 : Q (dSetI true (dw (bs ": ") s))) by (eapply Qsame; [exact HQ|eapply same_trans; [eapply dump_same; exact E1|same0]]).
      assert (G : exists f, (match v with Some v => dump f ro (unpackValue v) (dSetI true (dw (bs ": ") s)) | None => DEnd (dw (bs "<invalid>") (dSetI true (dw (bs ": ") s))) end) <> DHang)
        by (destruct v as [v|]; [apply (B k v (or_introl eq_refl)); exact HQ1|exists O; discriminate]).
      destruct G as (f2 & N2).
      destruct (match v with Some v => dump f2 ro (unpackValue v) (dSetI true (dw (bs ": ") s)) | None => DEnd (dw (bs "<invalid>") (dSetI true (dw (bs ": ") s))) end) as [s2| |] eqn:E2; [| |congruence].
      - assert (HQ2 : Q s2) by (eapply Qsame; [exact HQ1|destruct v; [eapply dump_same; exact E2|injection E2 as <-; apply same_dw]]).
        destruct (IH (fun x y I => A x y (or_intror I)) (fun x y I => B x y (or_intror I)) (dw [44; 10] s2)) as (f3 & N3); [eapply Qsame; [exact HQ2|apply same_dw]|]. exists (f1 + f2 + f3)%nat. cbn [mapLoop].
        rewrite (dump_le f1 (f1 + f2 + f3) ro ltac:(lia)) by congruence. rewrite E1. cbn [dbind].
        assert (E2' : (match v with Some v => dump (f1 + f2 + f3) ro (unpackValue v) (dSetI true (dw (bs ": ") s)) | None => DEnd (dw (bs "<invalid>") (dSetI true (dw (bs ": ") s))) end) = DEnd s2)
          by (destruct v; [rewrite (dump_le f2 (f1 + f2 + f3) ro ltac:(lia)) by congruence|]; exact E2).
        rewrite E2'. cbn [dbind]. destruct l; [discriminate|]. rewrite (mapLoop_le _ _ (dump_le f3 (f1 + f2 + f3) ro ltac:(lia))) by exact N3. exact N3.
      - exists (f1 + f2)%nat. cbn [mapLoop]. rewrite (dump_le f1 (f1 + f2) ro ltac:(lia)) by congruence. rewrite E1. cbn [dbind].
        destruct v as [v|]; [|discriminate]. rewrite (dump_le f2 (f1 + f2) ro ltac:(lia)) by congruence. rewrite E2. discriminate.
    Qed.
  End Loops.

  Hypothesis perm : forall less l, Permutation (sortBy less l) l.
  Lemma braces_ends (b : nat -> dst -> dres) st : (tooDeep cs (S (dDepth st)) = false -> exists f, b f (dSetDepth (S (dDepth st)) (dw [123; 10] st)) <> DHang) -> exists f, braces cs (b f) st <> DHang.
  Proof.
    intros A. unfold braces. cbn [dw dDepth]. cbn [dSetDepth dDepth]. fold (tooDeep cs (S (dDepth st))). destruct (tooDeep cs (S (dDepth st))) eqn:TD; [exists O; discriminate|].
    destruct (A eq_refl) as (f & N). exists f. cbn [dw dDepth] in N. destruct (b f _); [discriminate|discriminate|]. intros _. apply N. reflexivity.
  Qed.
  (** A value that is not a pointer, when its parts end one level deeper *)
  Lemma value_ends (v : sval) (st : dst) : isPtr v = false ->
    (tooDeep cs (S (dDepth st)) = false -> forall x, inside h x v -> forall ro, endsAll (fun st' => dDepth st' = S (dDepth st) /\ kept (S (dDepth st)) (dPtrs st) (dPtrs st')) ro x) ->
    forall ro, exists f, dump f ro v st <> DHang.
  Proof.
    intros P A ro.
    pose proof (heading1_same v st) as S1. remember (heading1 v st) as st1 eqn:ES.
    set (Q := fun st' => dDepth st' = S (dDepth st) /\ kept (S (dDepth st)) (dPtrs st) (dPtrs st')) in *.
    assert (Q1 : Q (dSetDepth (S (dDepth st1)) (dw [123; 10] st1))) by (destruct S1 as [D1 P1]; unfold Q; cbn; rewrite D1, P1; split; [reflexivity|apply kept_refl]).
    assert (QS : forall a b, Q a -> same a b -> Q b).
    { intros a b [X1 X2] [Y1 Y2]. split; [congruence|]. rewrite X1 in Y2. eapply kept_trans; eauto. }
    assert (H : exists f, (if snd (match v with SIface _ _ => ([], false) | _ => if negb (DisableMethods cs) then handleMethods method cs v else ([], false) end) then DEnd st1 else
        match v with
        | SBasic _ k => DEnd (dw (basicText decimal quote k) st1)
        | SPtr _ _ => DEnd st1
        | SIface _ None => DEnd (dw (bs "<nil>") st1)
        | SIface _ (Some _) => DEnd st1
        | SSlice _ _ None | SMap _ None => DEnd (dw (bs "<nil>") st1)
        | SSlice _ _ (Some r) => braces cs (sliceLoop (dump f ro) (elems h r)) st1
        | SArr _ l => braces cs (sliceLoop (dump f ro) l) st1
        | SHex _ _ b => braces cs (fun st => DEnd (dw (hexdumpText hexDump cs (dDepth st) b) st)) st1
        | SMap _ (Some r) =>
          braces cs (fun st =>
            match (if SortKeys cs then sortValues method valueEq spewKey sortBy cs ro (entries h r) else Some (entries h r)) with
            | None => DPanic
            | Some l => mapLoop (dump f ro) l st
            end) st1
        | SStruct _ fs => braces cs (structLoop cs (dump f) ro fs) st1
        end) <> DHang).
    { destruct (snd _); [exists O; discriminate|]. destruct S1 as [D1 P1]. rewrite <- D1 in A.
      destruct v as [ty k|ty p|ty w|ty l|ty c s|ty c b|ty m|ty fs]; try (exists O; discriminate).
      - exists O. destruct w; discriminate.
      - apply (braces_ends (fun f => sliceLoop (dump f ro) l)). intros TD. specialize (A TD). apply (sliceLoop_ends Q QS); [|exact Q1]. intros v I. apply A. constructor. exact I.
      - destruct s as [r|]; [|exists O; discriminate]. apply (braces_ends (fun f => sliceLoop (dump f ro) (elems h r))). intros TD. specialize (A TD). apply (sliceLoop_ends Q QS); [|exact Q1]. intros v I. apply A. constructor. exact I.
      - exists O. unfold braces. destruct (negb (MaxDepth cs =? 0)%nat && _); discriminate.
      - destruct m as [r|]; [|exists O; discriminate]. apply (braces_ends (fun f st => match (if SortKeys cs then sortValues method valueEq spewKey sortBy cs ro (entries h r) else Some (entries h r)) with
            | None => DPanic | Some l => mapLoop (dump f ro) l st end)). intros TD. specialize (A TD).
        destruct (if SortKeys cs then sortValues method valueEq spewKey sortBy cs ro (entries h r) else Some (entries h r)) as [l|] eqn:SO; [|exists O; discriminate].
        assert (PL : Permutation l (entries h r)).
        { destruct (SortKeys cs); [|injection SO as ->; apply Permutation_refl]. unfold sortValues in SO. destruct (entries h r) as [|[k x] es]; [injection SO as <-; apply Permutation_refl|].
          match type of SO with (if ?b then _ else _) = _ => destruct b end; [discriminate|]. injection SO as <-. apply perm. }
        apply (mapLoop_ends Q QS); [| |exact Q1]; intros k x I; apply (Permutation_in _ PL) in I; apply A; econstructor; exact I.
      - apply (braces_ends (fun f => structLoop cs (dump f) ro fs)). intros TD. specialize (A TD). apply (structLoop_ends Q QS); [|exact Q1]. intros n e v I. apply A. econstructor. exact I. }
    subst st1. destruct H as (f & N). exists (S f). rewrite dump_step. unfold step. destruct v; try discriminate; exact N.
  Qed.
  (** The chain of a pointer ends *)
  Lemma chase_ends d : forall v, Acc (pointsTo h) v -> forall m i l, exists f c, chase h f d m v i l = Some c.
  Proof.
    induction 1 as [v _ IH]; intros m i l. destruct v as [ty k|ty [[a x]|]|ty w|ty l'|ty k s|ty k b|ty x|ty fs]; try (exists 1%nat; eexists; reflexivity).
    specialize (IH (unpackValue (cell h x)) (pt h ty a x) (put d a m) (S i) (l ++ [a])). destruct IH as (f & c & E). exists (S f). cbn [chase].
    destruct (above d a m); [eexists; reflexivity|]. destruct (cell h x) as [| |ty' [w|]| | | | |]; try (exists c; exact E). eexists; reflexivity.
  Qed.
  Lemma ptr_ends (v : sval) (st : dst) : isPtr v = true -> Acc (pointsTo h) v ->
    (forall f c, chase h f (dDepth st) (forget (dDepth st) (dPtrs st)) v 0 [] = Some c -> cNil c = false -> cCycle c = false ->
      forall ro st', dDepth st' = dDepth st -> dPtrs st' = cPtrs c -> exists f, dump f ro (cVe c) st' <> DHang) ->
    forall ro, exists f, dump f ro v st <> DHang.
  Proof.
    intros P HA A ro. destruct v as [|ty p| | | | | |]; try discriminate.
    destruct (chase_ends (dDepth st) _ HA (forget (dDepth st) (dPtrs st)) 0 []) as (f1 & c & C). specialize (A _ _ C).
    assert (EI : dDepth (indent cs st) = dDepth st /\ dPtrs (indent cs st) = dPtrs st) by (unfold indent; destruct (dIgnI st); split; reflexivity). destruct EI as [ED EP].
    set (k := fun st2 => DEnd (dw (bs ")") st2)).
    set (st2 := dw (bs "(") (if negb (DisablePointerAddresses cs) && (0 <? List.length (cChain c))%nat then dw (bs "(" ++ chainText (cChain c) ++ bs ")")
      (dw (bs "(" ++ repeatBytes (bs "*") (cInd c) ++ typeText (cVe c) ++ bs ")") (dSetPtrs (cPtrs c) (indent cs st))) else
      dw (bs "(" ++ repeatBytes (bs "*") (cInd c) ++ typeText (cVe c) ++ bs ")") (dSetPtrs (cPtrs c) (indent cs st)))).
    assert (G : exists f, (f1 <= f)%nat /\ dbind (if cNil c then DEnd (dw (bs "<nil>") st2) else if cCycle c then DEnd (dw (bs "<already shown>") st2) else dump f ro (cVe c) (dSetT true st2)) k <> DHang).
    { destruct (cNil c); [exists f1; split; [lia|discriminate]|]. destruct (cCycle c); [exists f1; split; [lia|discriminate]|].
      destruct (A eq_refl eq_refl ro (dSetT true st2)) as (f2 & N2).
      - subst st2. destruct (_ && _); cbn; exact ED.
      - subst st2. destruct (_ && _); reflexivity.
      - exists (f1 + f2)%nat. split; [lia|]. rewrite (dump_le f2 (f1 + f2) ro ltac:(lia)) by exact N2. destruct (dump f2 ro (cVe c) (dSetT true st2)); [discriminate|discriminate|congruence]. }
    destruct G as (f & L & N). exists (S f). rewrite dump_step. unfold step, dumpPtr. cbv zeta. rewrite ED, EP. rewrite (chase_le _ _ _ _ _ _ _ _ L C). exact N.
  Qed.

  (** ** Dump ends when pointers are the only way back *)
  Section Finite.
    Variable v0 : sval.
    Variable addrs : list Z.
    Hypothesis Hchains : chains_end h v0.
    Hypothesis Hnest : nesting_ends h v0.
    Hypothesis Haddrs : addresses_in h v0 addrs.
    Definition avail (m : ptrs) (d : nat) : nat := List.length (filter (fun a => negb (above d a m)) addrs).
    Lemma filter_le {A} (f g : A -> bool) l : (forall x, In x l -> f x = true -> g x = true) -> (List.length (filter f l) <= List.length (filter g l))%nat.
    Proof.
      induction l as [|x l IH]; intros F; [apply le_n|]. cbn. assert (IH' := IH (fun y I => F y (or_intror I))). destruct (f x) eqn:E; [rewrite (F x (or_introl eq_refl) E); cbn; lia|]. destruct (g x); cbn; lia.
    Qed.
    Lemma filter_lt {A} (f g : A -> bool) l x : In x l -> f x = false -> g x = true -> (forall x, In x l -> f x = true -> g x = true) -> (List.length (filter f l) < List.length (filter g l))%nat.
    Proof.
      induction l as [|y l IH]; intros I Fx Gx F; [destruct I|]. cbn. pose proof (filter_le f g l (fun y I => F y (or_intror I))). destruct I as [->|I].
      - rewrite Fx, Gx. cbn. lia.
      - assert (IH' := IH I Fx Gx (fun y I => F y (or_intror I))). destruct (f y) eqn:E; [rewrite (F y (or_introl eq_refl) E); cbn; lia|]. destruct (g y); cbn; lia.
    Qed.
    Lemma above_S d a m : above d a m = true -> above (S d) a m = true.
    Proof. intros A. apply above_spec in A. apply above_spec. destruct A as (k & L & I). exists k. split; [lia|exact I]. Qed.
    Lemma avail_S m d : (avail m (S d) <= avail m d)%nat.
    Proof. apply filter_le. intros a _ E. apply negb_true_iff in E. apply negb_true_iff. apply not_true_is_false. intros A. apply above_S in A. congruence. Qed.
    Lemma avail_kept m m' d : kept d m m' -> avail m' d = avail m d.
    Proof. intros K. unfold avail. f_equal. apply filter_ext. intros a. rewrite (kept_above d m m' a K). reflexivity. Qed.
    Lemma chase_avail d f m v i l c : chase h f d m v i l = Some c -> isPtr v = true -> cNil c = false -> cCycle c = false -> reach h v0 v -> (avail (cPtrs c) (S d) < avail m d)%nat.
    Proof.
      intros C P N Y RV. destruct f as [|f]; [discriminate|]. cbn [chase] in C. destruct v as [|ty [[a x]|]| | | | | |]; try discriminate; [|injection C as <-; discriminate].
      destruct (above d a m) eqn:A; [injection C as <-; discriminate|].
      assert (K : exists i' l', chase h f d (put d a m) (unpackValue (cell h x)) i' l' = Some c) by (destruct (cell h x) as [| |ty' [w|]| | | | |]; try (do 2 eexists; exact C); injection C as <-; discriminate).
      destruct K as (i' & l' & K). apply chase_kept in K. destruct K as [K1 K2]. unfold avail. apply (filter_lt _ _ _ a).
      - eapply Haddrs. exact RV.
      - apply negb_false_iff. apply K2. apply above_spec. exists d. split; [lia|]. apply In_put. auto.
      - rewrite A. reflexivity.
      - intros b _ E. apply negb_true_iff in E. apply negb_true_iff. apply not_true_is_false. intros B. pose proof (kept_above d m (cPtrs c) b (kept_trans _ _ _ _ (kept_put _ _ _ A) K1)) as KA.
        rewrite B in KA. apply above_S in KA. congruence.
    Qed.
    Lemma chase_reach d : forall f m v i l c, chase h f d m v i l = Some c -> reach h v0 v -> cNil c = false -> reach h v0 (cVe c).
    Proof.
      induction f as [|f IH]; intros m v i l c E RV N; [discriminate|]. cbn [chase] in E. destruct v as [ty k|ty [[a x]|]|ty w|ty l'|ty k s|ty k b|ty x|ty fs]; try (injection E as <-; exact RV).
      destruct (above d a m); [injection E as <-; exact RV|].
      assert (K : exists i' l', chase h f d (put d a m) (unpackValue (cell h x)) i' l' = Some c) by (destruct (cell h x) as [| |ty' [w|]| | | | |]; try (do 2 eexists; exact E); injection E as <-; discriminate).
      destruct K as (i' & l' & K). apply IH in K; auto. eapply reach_points; [exact RV|constructor].
    Qed.
    Lemma dump_ends_n : forall n w, reach h v0 w -> forall st, (avail (dPtrs st) (if isPtr w then dDepth st else S (dDepth st)) <= n)%nat -> forall ro, exists f, dump f ro w st <> DHang.
    Proof.
      induction n as [n IHn] using (well_founded_induction lt_wf). intros w RW. pose proof (Hnest w RW) as HA. induction HA as [w _ IHw]. intros st AV ro. destruct (isPtr w) eqn:P.
      - apply ptr_ends; [exact P|apply Hchains, RW|]. intros f c C N Y ro' st' D' P'. pose proof (chase_end_value _ _ _ _ _ _ _ _ C N Y) as PV.
        pose proof (chase_avail _ _ _ _ _ _ _ C P N Y RW) as LT. rewrite (avail_kept _ _ _ (kept_forget _ _)) in LT.
        apply (IHn (avail (cPtrs c) (S (dDepth st))) ltac:(lia) (cVe c) (chase_reach _ _ _ _ _ _ _ C RW N)). rewrite PV, D', P'. lia.
      - apply value_ends; [exact P|]. intros _ x IX ro' st' [D' K']. apply IHw; [exact IX|eapply reach_inside; eauto|]. pose proof (avail_kept _ _ _ K') as AK. pose proof (avail_S (dPtrs st') (S (dDepth st))) as AS.
        rewrite D'. destruct (isPtr x); lia.
    Qed.
    Lemma dump_ends ro st : exists f, dump f ro v0 st <> DHang.
    Proof. eapply dump_ends_n; [constructor|apply le_n]. Qed.
  End Finite.
  (** ** With a depth limit it is enough that the pointers come to an end *)
  Lemma dump_ends_max v0 : MaxDepth cs <> O -> chains_end h v0 -> forall ro st, exists f, dump f ro v0 st <> DHang.
  Proof.
    intros M Hchains. assert (G : forall n w, reach h v0 w -> forall st, (S (MaxDepth cs) - dDepth st <= n)%nat -> forall ro, exists f, dump f ro w st <> DHang).
    { induction n as [|n IH]; intros w RW st L ro.
      - assert (V : forall x st', isPtr x = false -> dDepth st' = dDepth st -> exists f, dump f ro x st' <> DHang).
        { intros x st' Px Dx. apply value_ends; [exact Px|]. intros TD. unfold tooDeep in TD. apply Nat.eqb_neq in M. rewrite M in TD. cbn in TD. apply Nat.leb_gt in TD. lia. }
        destruct (isPtr w) eqn:P; [|apply V; auto]. apply ptr_ends; [exact P|apply Hchains, RW|]. intros f c C N Y ro' st' D' P'. pose proof (chase_end_value _ _ _ _ _ _ _ _ C N Y) as PV.
        apply value_ends; [exact PV|]. intros TD. unfold tooDeep in TD. apply Nat.eqb_neq in M. rewrite M in TD. cbn in TD. apply Nat.leb_gt in TD. lia.
      - assert (V : forall x st' ro, reach h v0 x -> isPtr x = false -> dDepth st' = dDepth st -> exists f, dump f ro x st' <> DHang).
        { intros x st' ro' Rx Px Dx. apply value_ends; [exact Px|]. intros _ y IY ro'' st'' [D'' _]. apply IH; [eapply reach_inside; eauto|]. lia. }
        destruct (isPtr w) eqn:P; [|apply V; auto]. apply ptr_ends; [exact P|apply Hchains, RW|]. intros f c C N Y ro' st' D' P'. apply V; [eapply chase_reach; eauto|eapply chase_end_value; eauto|exact D']. }
    intros ro st. eapply G; [constructor|apply le_n].
  Qed.
End Ends.
