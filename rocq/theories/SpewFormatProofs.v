(** The formatter writes the text of the tree that its value unfolds to, see SpewFormatSpec.v. *)
From Verif Require Import Base SpewModel SpewSpec SpewProofs SpewFormatSpec.
Open Scope Z_scope.
Open Scope list_scope.
From Coq Require Import Permutation Lia.

Section Layout.
  Variable decimal : Z -> bytes.
  Variable quote : bytes -> bytes.
  Variable method : sval -> option mcall.
  Variable valueEq : sval -> sval -> bool.
  Variable spewKey : sval -> bytes.
  Variable sortBy : (entry -> entry -> bool) -> list entry -> list entry.
  Variable cs : config.
  Variable h : heap.
  Variable sharp plus : bool.
  Notation format := (format decimal quote method valueEq spewKey sortBy cs h sharp plus).
  Notation funfold := (funfold decimal method cs h sharp).
  Notation funfoldParts := (funfoldParts decimal method cs h sharp).
  Notation funfoldLabel := (funfoldLabel decimal method cs h sharp).
  Notation frender := (frender sharp plus).
  Hypothesis perm : forall less l, Permutation (sortBy less l) l.

  Lemma funfold_quiet d s s' hist v t hist' : sharp = false -> funfold d s hist v t hist' -> funfold d s' hist v t hist'.
  Proof. intros N U. inversion U; subst; try discriminate; [apply f_nil_quiet; reflexivity|eapply f_nil|eapply f_shown|eapply f_value|eapply f_says|eapply f_leaf|eapply f_max|eapply f_block]; eassumption. Qed.
  Lemma frender_quiet s s' t : sharp = false -> frender s t = frender s' t.
  Proof. intros N. destruct t; cbn [SpewFormatSpec.frender]; unfold ftype; rewrite ?N; reflexivity. Qed.
  Lemma countStars_spec ty : countStars ty = starsIn ty.
  Proof. induction ty as [|c ty IH]; [reflexivity|]. unfold countStars, starsIn in *. cbn [filter count_occ]. destruct (Z.eqb_spec 42 c), (Z.eq_dec c 42); cbn [List.length]; congruence. Qed.

  (** What is reachable from a value at which nothing is amiss *)
  Definition allowed (v : sval) : Prop := sharp = true -> noPointersListed h v.
  Lemma allowed_inside v w : inside h w v -> allowed v -> allowed w.
  Proof.
    intros I A S x R. apply (A S). clear A. induction R as [|y x R IH I2|y x R IH I2]; [eapply reach_inside; [constructor|exact I]|eapply reach_inside; eauto|eapply reach_points; eauto].
  Qed.
  Lemma allowed_points v w : pointsTo h w v -> allowed v -> allowed w.
  Proof.
    intros I A S x R. apply (A S). clear A. induction R as [|y x R IH I2|y x R IH I2]; [eapply reach_points; [constructor|exact I]|eapply reach_inside; eauto|eapply reach_points; eauto].
  Qed.
  Lemma allowed_chain d hist v l w hist' : chain h d hist v l (CValue w) hist' -> allowed v -> allowed w.
  Proof.
    intros C. remember (CValue w) as e. induction C; try discriminate; intros A.
    - injection Heqe as ->. exact A.
    - apply IHC; [exact Heqe|]. eapply allowed_points; [|exact A]. constructor.
  Qed.

  Definition fwrote (f : sval -> fst_ -> fres) (v : sval) : Prop :=
    forall st st' hist, f v st = FEnd st' -> repr (fPtrs st) hist -> allowed v ->
    exists t hist', funfold (fDepth st) (negb (fIgnT st)) hist v t hist' /\ fOut st' = fOut st ++ frender (negb (fIgnT st)) t /\
      fDepth st' = fDepth st /\ repr (fPtrs st') hist' /\ (sharp = true -> fIgnT st' = true -> isPtr v = true /\ fIgnT st = true).
  (** ... after unpackValue, with the flag that says whether the type is shown *)
  Lemma fUnpack_wrote f v st st' hist show : fwrote f (unpackValue v) -> fUnpack f v st = FEnd st' -> repr (fPtrs st) hist -> allowed (unpackValue v) ->
    (sharp = true -> show = (if isIface v then true else negb (fIgnT st))) ->
    exists t hist', funfold (fDepth st) show hist (unpackValue v) t hist' /\ fOut st' = fOut st ++ frender show t /\
      fDepth st' = fDepth st /\ repr (fPtrs st') hist' /\ (sharp = true -> fIgnT st' = true -> isPtr v = true /\ fIgnT st = true).
  Proof.
    intros W E R A S.
    assert (G : exists b, f (unpackValue v) (fSetT b st) = FEnd st' /\ b = (if isIface v then false else fIgnT st)).
    { destruct v as [| |ty [w|]| | | | |]; cbn [fUnpack] in E; (eexists; split; [|reflexivity]); cbn [isIface unpackValue]; try exact E; destruct st; exact E. }
    destruct G as (b & E' & B). destruct (W _ _ _ E' R A) as (t & hist' & U & O & D & R' & L). cbn [fSetT fDepth fOut fIgnT] in *.
    exists t, hist'. assert (SC : sharp = true \/ sharp = false) by (destruct sharp; auto). destruct SC as [SH|SH].
    - assert (SB : negb b = show) by (rewrite (S SH), B; destruct (isIface v); reflexivity). rewrite SB in *. split; [exact U|]. split; [exact O|]. split; [exact D|]. split; [exact R'|].
      intros _ X. destruct (L SH X) as [P Bt]. subst b. destruct v; cbn [isIface unpackValue] in *; try discriminate; auto.
    - split; [eapply funfold_quiet; eauto|]. rewrite (frender_quiet show (negb b) t SH). split; [exact O|]. split; [exact D|]. split; [exact R'|]. intros X. congruence.
  Qed.
  Definition itemText (x : flabel * (bool * ftree)) : bytes :=
    match fst x with FNone => [] | FName n => if plus || sharp then n ++ bs ":" else [] | FKey s key => frender s key ++ bs ":" end ++ frender (fst (snd x)) (snd (snd x)).
  (** Items after the first have a space in front *)
  Definition spaced (first : bool) (l : list bytes) : bytes := match l with [] => [] | _ => if first then joinSpace l else bs " " ++ joinSpace l end.
  Lemma spaced_cons first x l : spaced first (x :: l) = (if first then [] else bs " ") ++ x ++ spaced false l.
  Proof. unfold spaced. destruct l, first; cbn [joinSpace app]; rewrite ?app_nil_r; reflexivity. Qed.

  Lemma fSliceLoop_wrote f : forall l st st' hist first, (forall v, In v l -> fwrote f (unpackValue v) /\ allowed (unpackValue v) /\ (sharp = true -> isPtr v = false)) ->
    fSliceLoop f first l st = FEnd st' -> repr (fPtrs st) hist -> (sharp = true -> fIgnT st = false) ->
    exists ts hist', funfoldParts (fDepth st) KList hist (map (fun v => (PNone, Some v)) l) ts hist' /\ fOut st' = fOut st ++ spaced first (map itemText ts) /\
      fDepth st' = fDepth st /\ repr (fPtrs st') hist' /\ (sharp = true -> fIgnT st' = false).
  Proof.
    induction l as [|v l IH]; intros st st' hist first W E R T.
    - injection E as <-. exists [], hist. cbn. rewrite app_nil_r. split; [constructor|]. auto.
    - cbn [fSliceLoop] in E. match type of E with fbind (?g ?x) _ = _ => destruct (g x) as [st1| |] eqn:E1 end; try discriminate. cbn [fbind] in E.
      destruct (W v (or_introl eq_refl)) as (Wv & Av & Nv).
      destruct (fUnpack_wrote f v _ _ hist (showOf KList v) Wv E1) as (t & hist1 & U & O & D & R1 & L); [destruct first; exact R|exact Av|intros _; cbn; destruct (isIface v); reflexivity|].
      assert (T1 : sharp = true -> fIgnT st1 = false). { intros S. destruct (fIgnT st1) eqn:X; [|reflexivity]. destruct (L S eq_refl) as [P _]. rewrite (Nv S) in P. discriminate. }
      destruct (IH st1 st' hist1 false) as (ts & hist' & U' & O' & D' & R' & T'); auto; [intros x I; apply W; right; exact I|].
      assert (D1 : fDepth st1 = fDepth st) by (rewrite D; destruct first; reflexivity). rewrite D1 in *.
      exists ((FNone, (showOf KList v, t)) :: ts), hist'. split; [cbn [map]; econstructor; [constructor|destruct first; exact U|exact U']|].
      split; [|auto]. rewrite O', O. cbn [map]. rewrite spaced_cons. unfold itemText at 2. cbn [fst snd app]. destruct first; cbn [fSetT fw fOut app]; rewrite <- ?app_assoc; reflexivity.
  Qed.
  Lemma fStructLoop_wrote f ro : forall l st st' hist first, (forall n e v, In (n, e, v) l -> (forall ro, fwrote (f ro) (unpackValue v)) /\ allowed (unpackValue v)) ->
    fStructLoop sharp plus f ro first l st = FEnd st' -> repr (fPtrs st) hist -> (sharp = true -> fIgnT st = false) ->
    exists ts hist', funfoldParts (fDepth st) KStruct hist (map (fun f => (PName (fst (fst f)), Some (snd f))) l) ts hist' /\ fOut st' = fOut st ++ spaced first (map itemText ts) /\
      fDepth st' = fDepth st /\ repr (fPtrs st') hist' /\ (sharp = true -> fIgnT st' = false).
  Proof.
    induction l as [|[[n e] v] l IH]; intros st st' hist first W E R T.
    - injection E as <-. exists [], hist. cbn. rewrite app_nil_r. split; [constructor|]. auto.
    - cbn [fStructLoop] in E. remember (if plus || sharp then _ else _) as st0 eqn:S0 in E.
      assert (G : fOut st0 = fOut st ++ (if first then [] else bs " ") ++ (if plus || sharp then n ++ bs ":" else []) /\ fDepth st0 = fDepth st /\ fPtrs st0 = fPtrs st /\ fIgnT st0 = fIgnT st).
      { rewrite S0. destruct (plus || sharp), first; cbn; rewrite ?app_nil_r, <- ?app_assoc; auto. }
      clear S0. destruct G as (O0 & D0 & P0 & T0).
      match type of E with fbind ?x _ = _ => destruct x as [st1| |] eqn:E1 end; try discriminate. cbn [fbind] in E.
      destruct (W n e v (or_introl eq_refl)) as (Wv & Av). rewrite <- P0 in R. rewrite <- T0 in T.
      destruct (fUnpack_wrote _ v _ _ hist (showOf KStruct v) (Wv _) E1 R Av) as (t & hist1 & U & O & D & R1 & L); [intros S; rewrite (T S); destruct (isIface v); reflexivity|].
      assert (T1 : sharp = true -> fIgnT st1 = false). { intros S. destruct (fIgnT st1) eqn:X; [|reflexivity]. destruct (L S eq_refl) as [P Y]. rewrite (T S) in Y. discriminate. }
      destruct (IH st1 st' hist1 false) as (ts & hist' & U' & O' & D' & R' & T'); auto; [intros x y z I; eapply W; right; exact I|].
      rewrite D, D0 in *.
      exists ((FName n, (showOf KStruct v, t)) :: ts), hist'. split; [cbn [map fst snd]; econstructor; [constructor|exact U|exact U']|].
      split; [|auto]. rewrite O', O, O0. cbn [map]. rewrite spaced_cons. unfold itemText at 2. cbn [fst snd]. rewrite <- !app_assoc. reflexivity.
  Qed.
  Lemma fMapLoop_wrote f : forall l st st' hist first, (forall k x, In (k, x) l -> (fwrote f (unpackValue k) /\ allowed (unpackValue k) /\ (sharp = true -> isPtr k = false)) /\
      (forall v, x = Some v -> fwrote f (unpackValue v) /\ allowed (unpackValue v) /\ (sharp = true -> isPtr v = false)) /\ (sharp = true -> x <> None)) ->
    fMapLoop f first l st = FEnd st' -> repr (fPtrs st) hist -> (sharp = true -> fIgnT st = false) ->
    exists ts hist', funfoldParts (fDepth st) KMap hist (map (fun e => (PKey (fst e), snd e)) l) ts hist' /\ fOut st' = fOut st ++ spaced first (map itemText ts) /\
      fDepth st' = fDepth st /\ repr (fPtrs st') hist' /\ (sharp = true -> fIgnT st' = false).
  Proof.
    induction l as [|[k x] l IH]; intros st st' hist first W E R T.
    - injection E as <-. exists [], hist. cbn. rewrite app_nil_r. split; [constructor|]. auto.
    - cbn [fMapLoop] in E. match type of E with fbind (?g ?x) _ = _ => destruct (g x) as [st1| |] eqn:E1 end; try discriminate. cbn [fbind] in E.
      destruct (W k x (or_introl eq_refl)) as ((Wk & Ak & Nk) & Wx & Nx).
      destruct (fUnpack_wrote f k _ _ hist (isIface k) Wk E1) as (tk & hist1 & U & O & D & R1 & L); [destruct first; exact R|exact Ak|intros _; cbn; destruct (isIface k); reflexivity|].
      assert (D1 : fDepth st1 = fDepth st) by (rewrite D; destruct first; reflexivity).
      assert (W' : forall k x, In (k, x) l -> (fwrote f (unpackValue k) /\ allowed (unpackValue k) /\ (sharp = true -> isPtr k = false)) /\
        (forall v, x = Some v -> fwrote f (unpackValue v) /\ allowed (unpackValue v) /\ (sharp = true -> isPtr v = false)) /\ (sharp = true -> x <> None)) by (intros; apply W; right; assumption).
      assert (Uk : funfoldLabel (fDepth st) hist (PKey k) (FKey (isIface k) tk) hist1) by (constructor; destruct first; exact U).
      assert (O1 : fOut st1 = fOut st ++ (if first then [] else bs " ") ++ frender (isIface k) tk) by (rewrite O; destruct first; cbn [fSetT fw fOut app]; rewrite <- ?app_assoc; reflexivity).
      destruct x as [v|].
      + match type of E with fbind (?g ?x) _ = _ => destruct (g x) as [st2| |] eqn:E2 end; try discriminate. cbn [fbind] in E.
        destruct (Wx v eq_refl) as (Wv & Av & Nv).
        destruct (fUnpack_wrote f v _ _ hist1 (showOf KMap v) Wv E2 R1 Av) as (t & hist2 & U2 & O2 & D2 & R2 & L2); [intros _; cbn; destruct (isIface v); reflexivity|].
        cbn [fSetT fw fDepth fOut] in U2, O2, D2. rewrite D1 in U2, D2.
        assert (T2 : sharp = true -> fIgnT st2 = false). { intros S. destruct (fIgnT st2) eqn:X; [|reflexivity]. destruct (L2 S eq_refl) as [P _]. rewrite (Nv S) in P. discriminate. }
        destruct (IH st2 st' hist2 false W' E R2 T2) as (ts & hist' & U' & O' & D' & R' & T'). rewrite D2 in *.
        exists ((FKey (isIface k) tk, (showOf KMap v, t)) :: ts), hist'. split; [cbn [map fst snd]; econstructor; [exact Uk|exact U2|exact U']|].
        split; [|auto]. rewrite O', O2, O1. cbn [map]. rewrite spaced_cons. unfold itemText at 2. cbn [fst snd]. rewrite <- !app_assoc. reflexivity.
      + cbn [fbind] in E. destruct (IH (fw (bs "<invalid>") (fSetT true (fw [58] st1))) st' hist1 false W' E R1) as (ts & hist' & U' & O' & D' & R' & T'); [intros S; destruct (Nx S eq_refl)|].
        cbn [fSetT fw fDepth fOut] in *. rewrite D1 in *.
        exists ((FKey (isIface k) tk, (false, FInvalid)) :: ts), hist'. split; [cbn [map fst snd]; econstructor; [exact Uk|exact U']|].
        split; [|auto]. rewrite O', O1. cbn [map]. rewrite spaced_cons. unfold itemText at 2. cbn [fst snd SpewFormatSpec.frender]. rewrite <- !app_assoc. reflexivity.
  Qed.
  Definition fhead (v : sval) (st : fst_) : fst_ :=
    fw (fst (match v with SIface _ _ => ([], false) | _ => if negb (DisableMethods cs) then handleMethods method cs v else ([], false) end))
      (fSetT false (if negb (fIgnT st) && sharp then fw (bs "(" ++ typeText v ++ bs ")") st else st)).
  Definition fstep (f : bool -> sval -> fst_ -> fres) (fuel : nat) (ro : bool) (v : sval) (st : fst_) : fres :=
    match v with
    | SPtr _ _ => formatPtr h sharp plus (f ro) fuel v st
    | _ =>
      if snd (match v with SIface _ _ => ([], false) | _ => if negb (DisableMethods cs) then handleMethods method cs v else ([], false) end) then FEnd (fhead v st) else
        match v with
        | SBasic _ k => FEnd (fw (fBasicText decimal quote k) (fhead v st))
        | SPtr _ _ => FEnd (fhead v st)
        | SIface _ None => FEnd (fw (bs "<nil>") (fhead v st))
        | SIface _ (Some _) => FEnd (fhead v st)
        | SSlice _ _ None | SMap _ None => FEnd (fw (bs "<nil>") (fhead v st))
        | SSlice _ _ (Some r) => brackets cs (bs "[") (bs "]") (fSliceLoop (f ro) true (elems h r)) (fhead v st)
        | SArr _ l => brackets cs (bs "[") (bs "]") (fSliceLoop (f ro) true l) (fhead v st)
        | SHex _ _ b => brackets cs (bs "[") (bs "]") (fSliceLoop (f ro) true (map (fun c => SBasic (bs "uint8") (BUint c)) b)) (fhead v st)
        | SMap _ (Some r) =>
          brackets cs (bs "map[") (bs "]") (fun st =>
            match (if SortKeys cs then sortValues method valueEq spewKey sortBy cs ro (entries h r) else Some (entries h r)) with
            | None => FPanic
            | Some l => fMapLoop (f ro) true l st
            end) (fhead v st)
        | SStruct _ fs => brackets cs (bs "{") (bs "}") (fStructLoop sharp plus f ro true fs) (fhead v st)
        end
    end.
  Lemma format_step fuel ro v st : format (S fuel) ro v st = fstep (format fuel) fuel ro v st.
  Proof. reflexivity. Qed.
  Lemma sortedEntries_perm ro r l : (if SortKeys cs then sortValues method valueEq spewKey sortBy cs ro (entries h r) else Some (entries h r)) = Some l -> Permutation l (entries h r).
  Proof.
    destruct (SortKeys cs); [|intros E; injection E as <-; apply Permutation_refl]. unfold sortValues. destruct (entries h r) as [|[k x] l0]; [intros E; injection E as <-; constructor|].
    match goal with |- (if ?b then _ else _) = _ -> _ => destruct b end; [discriminate|]. intros E. injection E as <-. apply perm.
  Qed.

  Lemma format_wrote : forall fuel ro v, fwrote (format fuel ro) v.
  Proof.
    induction fuel as [|fuel IH]; intros ro v st st' hist E R A; [discriminate|]. rewrite format_step in E.
    destruct (isPtr v) eqn:P.
    { destruct v as [|ty p| | | | | |]; try discriminate. cbn [fstep] in E. destruct p as [p|].
      2:{ cbn [formatPtr] in E. destruct (negb sharp || fIgnT st) eqn:Q; injection E as <-.
          - exists (FLeaf ty (bs "<nil>")), hist. assert (Q' : sharp && negb (fIgnT st) = false) by (destruct sharp, (fIgnT st); cbn in *; auto).
            split; [constructor; exact Q'|]. cbn [SpewFormatSpec.frender]. unfold ftype. rewrite Q'. cbn [fw fOut fDepth fPtrs fIgnT app]. auto 10.
          - exists (FLeaf ty (bs "<nil>")), (EVisit (fDepth st) :: hist). assert (Q' : sharp && negb (fIgnT st) = true) by (destruct sharp, (fIgnT st); cbn in *; auto).
            split; [constructor; exact Q'|]. cbn [SpewFormatSpec.frender]. unfold ftype. rewrite Q'. cbn [fw fSetPtrs fOut fDepth fPtrs fIgnT typeText]. rewrite <- !app_assoc. repeat split; auto; try (apply repr_forget; exact R).
            all: apply (repr_forget _ _ (fDepth st) R). }
      unfold formatPtr in E.
      destruct (chase h fuel (fDepth st) (forget (fDepth st) (fPtrs st)) (SPtr ty (Some p)) 0 []) as [c|] eqn:C; [|discriminate].
      pose proof (repr_forget _ _ (fDepth st) R) as RF.
      destruct (chase_chain h (fDepth st) _ _ _ _ _ _ _ RF (fun a k I => Nat.lt_le_incl _ _ (proj2 (proj1 (In_forget _ _ _ _) I))) C) as (l & hist1 & CH & CL & R1 & CI).
      cbn [app] in CL. cbn [Nat.add] in CI.
      assert (LN : l <> []) by (intros ->; inversion CH; subst; discriminate).
      match type of E with (if cNil c then FEnd (fw _ ?s) else _) = _ => remember s as st2 eqn:S2 in E end.
      assert (G : fOut st2 = fOut st ++ (if sharp && negb (fIgnT st) then bs "(" ++ repeat 42 (cInd c) ++ typeText (cVe c) ++ bs ")"
          else bs "<" ++ repeat 42 (cInd c + (if cNil c || cCycle c then starsIn (typeText (cVe c)) else 0))%nat ++ bs ">") ++ (if plus then bs "(" ++ arrows (map hexText l) ++ bs ")" else []) /\
        fDepth st2 = fDepth st /\ fPtrs st2 = cPtrs c /\ fIgnT st2 = fIgnT st).
      { rewrite S2, CL, !repeatBytes_stars, chainText_arrows, countStars_spec. destruct l as [|a l]; [contradiction|]. cbn [fSetPtrs fIgnT].
        destruct (sharp && negb (fIgnT st)), plus; cbn [andb List.length Nat.ltb Nat.leb fw fSetPtrs fOut fDepth fPtrs fIgnT]; rewrite ?app_nil_r, <- ?app_assoc; auto. }
      clear S2. destruct G as (O2 & D2 & P2 & T2). rewrite <- P2 in R1. unfold endOf in CH, CI. destruct (cNil c) eqn:CN.
      { injection E as <-. exists (FPtr (List.length l) (typeText (cVe c)) l FNil), hist1. split; [apply f_nil; exact CH|].
        cbn [orb] in O2. cbn [fw fOut fDepth fPtrs fIgnT SpewFormatSpec.frender]. rewrite O2, CI, <- !app_assoc, T2. auto 10. }
      destruct (cCycle c) eqn:CC.
      { injection E as <-. exists (FPtr (pred (List.length l)) (typeText (cVe c)) l FShown), hist1. split; [apply f_shown; exact CH|].
        cbn [orb] in O2. cbn [fw fOut fDepth fPtrs fIgnT SpewFormatSpec.frender]. rewrite O2, CI, <- !app_assoc, T2. auto 10. }
      destruct (IH ro (cVe c) _ _ hist1 E R1) as (t & hist2 & U & O & D & R3 & L); [eapply allowed_chain; eauto|].
      cbn [fSetT fOut fDepth fPtrs fIgnT negb] in U, O, D, L. rewrite D2 in U, D.
      exists (FPtr (List.length l) (typeText (cVe c)) l (FValue t)), hist2. split; [eapply f_value; eauto|].
      cbn [orb] in O2. cbn [SpewFormatSpec.frender]. rewrite O, O2, CI, <- !app_assoc. split; [reflexivity|]. split; [exact D|]. split; [exact R3|].
      intros S X. destruct (L S X) as [PE _]. rewrite (chase_end_value _ _ _ _ _ _ _ _ C CN CC) in PE. discriminate. }
    pose proof (handleMethods_says method cs v) as SA.
    assert (S1 : fOut (fhead v st) = fOut st ++ ftype sharp (negb (fIgnT st)) (typeText v) ++ fst (match v with SIface _ _ => ([], false) | _ => if negb (DisableMethods cs) then handleMethods method cs v else ([], false) end) /\
      fDepth (fhead v st) = fDepth st /\ fPtrs (fhead v st) = fPtrs st /\ fIgnT (fhead v st) = false).
    { unfold fhead, ftype. rewrite (andb_comm sharp). destruct (negb (fIgnT st) && sharp); cbn [fw fSetT fOut fDepth fPtrs fIgnT app]; rewrite <- ?app_assoc; auto. }
    unfold fstep in E. remember (match v with SIface _ _ => ([], false) | _ => if negb (DisableMethods cs) then handleMethods method cs v else ([], false) end) as hm eqn:HM. clear HM.
    revert S1 E. generalize (fhead v st). intros st1 (O1 & D1 & P1 & T1) E. rewrite <- P1 in R.
    destruct (snd hm) eqn:SH.
    { assert (E' : FEnd st1 = FEnd st') by (destruct v; try exact E; discriminate). injection E' as <-.
      exists (FLeaf (typeText v) (fst hm)), hist. split; [apply f_says; auto|]. cbn [SpewFormatSpec.frender]. rewrite T1. repeat split; auto; try apply R; intros; discriminate. }
    assert (LEAF : forall text, leafText decimal (fun s => s) v text -> FEnd (fw text st1) = FEnd st' ->
      exists t hist', funfold (fDepth st) (negb (fIgnT st)) hist v t hist' /\ fOut st' = fOut st ++ frender (negb (fIgnT st)) t /\
        fDepth st' = fDepth st /\ repr (fPtrs st') hist' /\ (sharp = true -> fIgnT st' = true -> false = true /\ fIgnT st = true)).
    { intros text LT EE. injection EE as <-. exists (FLeaf (typeText v) (fst hm ++ text)), hist. split; [apply f_leaf; auto|]. cbn [SpewFormatSpec.frender fw fOut fDepth fPtrs fIgnT]. rewrite O1, T1, <- !app_assoc.
      repeat split; auto; try apply R; discriminate. }
    assert (BLOCK : forall k body, (forall st2 st3, body st2 = FEnd st3 -> fIgnT st2 = false -> repr (fPtrs st2) hist -> fDepth st2 = S (fDepth st) ->
        exists l ts hist', fparts h v k l /\ funfoldParts (S (fDepth st)) k hist l ts hist' /\ fOut st3 = fOut st2 ++ joinSpace (map itemText ts) /\
          fDepth st3 = fDepth st2 /\ repr (fPtrs st3) hist' /\ (sharp = true -> fIgnT st3 = false)) ->
      (exists l, fparts h v k l) -> brackets cs (opening k) (closing k) body st1 = FEnd st' ->
      exists t hist', funfold (fDepth st) (negb (fIgnT st)) hist v t hist' /\ fOut st' = fOut st ++ frender (negb (fIgnT st)) t /\
        fDepth st' = fDepth st /\ repr (fPtrs st') hist' /\ (sharp = true -> fIgnT st' = true -> false = true /\ fIgnT st = true)).
    { intros k body HB (l0 & P0) EE. unfold brackets in EE. cbn [fSetDepth fw fDepth] in EE. rewrite D1 in EE. change (negb (MaxDepth cs =? 0)%nat && (MaxDepth cs <? S (fDepth st))%nat) with (tooDeep cs (S (fDepth st))) in EE.
      destruct (tooDeep cs (S (fDepth st))) eqn:TD.
      - cbn [fbind] in EE. injection EE as <-. exists (FMax k (typeText v) (fst hm)), hist. split; [eapply f_max; eauto|].
        cbn [fw fSetDepth fOut fDepth fPtrs fIgnT SpewFormatSpec.frender pred]. rewrite O1, T1, <- !app_assoc. repeat split; auto; try apply R; discriminate.
      - match type of EE with fbind (body ?x) _ = _ => destruct (body x) as [st3| |] eqn:E3 end; try discriminate. cbn [fbind] in EE. injection EE as <-.
        destruct (HB _ _ E3) as (l & ts & hist' & PA & U & O & D & R3 & T3); auto. cbn [fSetDepth fw fDepth fOut] in O, D.
        exists (FBlock k (typeText v) (fst hm) ts), hist'. split; [eapply f_block; eauto|]. cbn [fw fSetDepth fOut fDepth fPtrs fIgnT SpewFormatSpec.frender]. rewrite O, O1, D, <- !app_assoc. cbn [pred].
        split; [reflexivity|]. split; [reflexivity|]. split; [exact R3|]. intros S X. rewrite (T3 S) in X. discriminate. }
    assert (JS : forall l, spaced true l = joinSpace l) by (intros [|? ?]; reflexivity).
    assert (AI : forall w, inside h w v -> allowed w) by (intros w I; eapply allowed_inside; eauto).
    assert (NL : forall x, listed h x v -> sharp = true -> isPtr x = false) by (intros x L S; apply (proj1 (A S v (reach_self _ _)) x L)).
    destruct v as [ty k|ty p|ty w|ty l|ty c s|ty c b|ty m|ty fs].
    - apply (LEAF (fBasicText decimal quote k)); auto. destruct k; constructor.
    - discriminate.
    - destruct w as [w|]; [apply (LEAF []); [constructor|]|apply (LEAF (bs "<nil>")); [constructor|exact E]].
      rewrite <- E. f_equal. unfold fw. rewrite app_nil_r. destruct st1; reflexivity.
    - apply (BLOCK KList (fSliceLoop (format fuel ro) true l)); auto; [|eexists; constructor]. intros st2 st3 E2 T2 R2 D2.
      destruct (fSliceLoop_wrote (format fuel ro) l st2 st3 hist true) as (ts & hist' & U & O & D & R3 & T3); auto.
      { intros x I. split; [apply IH|]. split; [apply AI; constructor; exact I|apply NL; exact I]. }
      rewrite D2 in U. rewrite JS in O. exists (map (fun v => (PNone, Some v)) l), ts, hist'. split; [constructor|]. auto 10.
    - destruct s as [r|]; [|apply (LEAF (bs "<nil>")); auto; constructor].
      apply (BLOCK KList (fSliceLoop (format fuel ro) true (elems h r))); auto; [|eexists; constructor]. intros st2 st3 E2 T2 R2 D2.
      destruct (fSliceLoop_wrote (format fuel ro) (elems h r) st2 st3 hist true) as (ts & hist' & U & O & D & R3 & T3); auto.
      { intros x I. split; [apply IH|]. split; [apply AI; constructor; exact I|apply NL; exact I]. }
      rewrite D2 in U. rewrite JS in O. exists (map (fun v => (PNone, Some v)) (elems h r)), ts, hist'. split; [constructor|]. auto 10.
    - apply (BLOCK KList (fSliceLoop (format fuel ro) true (map (fun c => SBasic (bs "uint8") (BUint c)) b))); auto; [|eexists; constructor]. intros st2 st3 E2 T2 R2 D2.
      destruct (fSliceLoop_wrote (format fuel ro) (map (fun c => SBasic (bs "uint8") (BUint c)) b) st2 st3 hist true) as (ts & hist' & U & O & D & R3 & T3); auto.
      { intros x I. apply in_map_iff in I. destruct I as (n & <- & _). split; [apply IH|]. split; [|reflexivity]. intros _ w RW.
        assert (w = SBasic (bs "uint8") (BUint n)) as -> by (induction RW as [|y w RW IHw I|y w RW IHw I]; [reflexivity|subst; inversion I|subst; inversion I]).
        split; [intros y []|intros; discriminate]. }
      rewrite D2, map_map in U. rewrite JS in O. eexists; exists ts, hist'. split; [constructor|]. auto 10.
    - destruct m as [r|]; [|apply (LEAF (bs "<nil>")); auto; constructor].
      eapply (BLOCK KMap); [| |exact E]; [|eexists; constructor; apply Permutation_refl]. intros st2 st3 E2 T2 R2 D2. cbv beta in E2.
      destruct (if SortKeys cs then _ else _) as [l|] eqn:SK in E2; [|discriminate]. apply sortedEntries_perm in SK.
      destruct (fMapLoop_wrote (format fuel ro) l st2 st3 hist true) as (ts & hist' & U & O & D & R3 & T3); auto.
      { intros k x I. apply (Permutation_in _ SK) in I. split; [split; [apply IH|split; [apply AI; econstructor; exact I|apply NL; exists k, x; auto]]|]. split.
        - intros v ->. split; [apply IH|]. split; [apply AI; eapply in_val; exact I|apply NL; exists k, (Some v); auto].
        - intros S ->. apply (proj2 (A S _ (reach_self _ _)) ty r k eq_refl I). }
      rewrite D2 in U. rewrite JS in O. eexists; exists ts, hist'. split; [econstructor; exact SK|]. auto 10.
    - apply (BLOCK KStruct (fStructLoop sharp plus (format fuel) ro true fs)); auto; [|eexists; constructor]. intros st2 st3 E2 T2 R2 D2.
      destruct (fStructLoop_wrote (format fuel) ro fs st2 st3 hist true) as (ts & hist' & U & O & D & R3 & T3); auto.
      { intros n e v I. split; [intros; apply IH|]. apply AI. econstructor. exact I. }
      rewrite D2 in U. rewrite JS in O. eexists; exists ts, hist'. split; [constructor|]. auto 10.
  Qed.
End Layout.
