(** The formatter comes to an end; more fuel does not change its result. *)
From Verif Require Import Base SpewModel SpewSpec SpewProofs SpewProofs2 SpewFormatSpec SpewFormatProofs.
Open Scope Z_scope.
Open Scope list_scope.
From Coq Require Import Permutation Lia Wf_nat.

Definition fle (d d' : sval -> fst_ -> fres) : Prop := forall v st, d v st <> FHang -> d' v st = d v st.
Lemma fUnpack_le f f' v st : fle f f' -> fUnpack f v st <> FHang -> fUnpack f' v st = fUnpack f v st.
Proof. intros L N. destruct v as [| |ty [w|]| | | | |]; cbn [fUnpack] in *; apply L; exact N. Qed.
Ltac unpack L E N := match type of N with fbind ?x _ <> _ => destruct x as [s| |] eqn:E end; cbn [fbind] in N; [| |congruence]; rewrite (fUnpack_le _ _ _ _ L) by congruence; rewrite E; cbn [fbind]; [|reflexivity].
Lemma fSliceLoop_le f f' : fle f f' -> forall l first st, fSliceLoop f first l st <> FHang -> fSliceLoop f' first l st = fSliceLoop f first l st.
Proof. intros L. induction l as [|v l IH]; intros first st N; [reflexivity|]. cbn [fSliceLoop] in *. unpack L E N. apply IH. exact N. Qed.
Lemma fStructLoop_le sharp plus f f' : (forall ro, fle (f ro) (f' ro)) -> forall ro l first st, fStructLoop sharp plus f ro first l st <> FHang -> fStructLoop sharp plus f' ro first l st = fStructLoop sharp plus f ro first l st.
Proof.
  intros L ro. induction l as [|[[n e] v] l IH]; intros first st N; [reflexivity|]. cbn [fStructLoop] in *. unpack (L (ro || negb e)) E N. apply IH. exact N.
Qed.
Lemma fMapLoop_le f f' : fle f f' -> forall l first st, fMapLoop f first l st <> FHang -> fMapLoop f' first l st = fMapLoop f first l st.
Proof.
  intros L. induction l as [|[k v] l IH]; intros first st N; [reflexivity|]. cbn [fMapLoop] in *. unpack L E N. destruct v as [v|]; cbn [fbind] in *; [|apply IH; exact N].
  match type of N with fbind ?x _ <> _ => destruct x as [s2| |] eqn:E2 end; cbn [fbind] in N; [| |congruence]; rewrite (fUnpack_le _ _ _ _ L) by congruence; rewrite E2; cbn [fbind]; [|reflexivity]. apply IH. exact N.
Qed.
Lemma brackets_le cs o c b b' : (forall st, b st <> FHang -> b' st = b st) -> forall st, brackets cs o c b st <> FHang -> brackets cs o c b' st = brackets cs o c b st.
Proof.
  intros L st N. unfold brackets in *. destruct (negb (MaxDepth cs =? 0)%nat && _); [reflexivity|]. match type of N with fbind ?x _ <> _ => destruct x as [s| |] eqn:E end; cbn [fbind] in N; [| |congruence];
    rewrite L by congruence; rewrite E; reflexivity.
Qed.

Lemma forgetKept d m : kept d m (forget d m).
Proof. intros a k L. rewrite In_forget. split; [intros [I _]; exact I|intros I; split; assumption]. Qed.
Section Ends.
  Variable decimal : Z -> bytes.
  Variable quote : bytes -> bytes.
  Variable method : sval -> option mcall.
  Variable valueEq : sval -> sval -> bool.
  Variable spewKey : sval -> bytes.
  Variable sortBy : (entry -> entry -> bool) -> list entry -> list entry.
  Variable cs : config.
  Variable h : heap.
  Variable sharp plus : bool.
  Notation format := (format decimal quote method valueEq spewKey sortBy cs h sharp plus).
  Notation fhead := (fhead method cs sharp).
  Lemma fhead_same v st : fDepth (fhead v st) = fDepth st /\ fPtrs (fhead v st) = fPtrs st.
  Proof. unfold SpewFormatProofs.fhead. destruct (_ && _); split; reflexivity. Qed.
  Lemma format_S : forall fuel ro, fle (format fuel ro) (format (S fuel) ro).
  Proof.
    induction fuel as [|fuel IH]; intros ro v st N; [exfalso; apply N; reflexivity|]. rewrite !(format_step _ _ _ _ _ _ _ _ _ _ (S fuel)), !(format_step _ _ _ _ _ _ _ _ _ _ fuel). rewrite (format_step _ _ _ _ _ _ _ _ _ _ fuel) in N. unfold fstep in *.
    destruct v as [ty k|ty p|ty w|ty l|ty c s|ty c b|ty m|ty fs].
    - destruct (snd _); reflexivity.
    - unfold formatPtr in *. destruct p as [p|]; [|reflexivity]. cbv zeta in *. destruct (chase h fuel (fDepth st) (forget (fDepth st) (fPtrs st)) (SPtr ty (Some p)) 0 []) as [c|] eqn:C; [|exfalso; apply N; reflexivity].
      rewrite (chase_S _ _ _ _ _ _ _ _ C). destruct (cNil c); [reflexivity|]. destruct (cCycle c); [reflexivity|]. apply IH. exact N.
    - destruct (snd _); reflexivity.
    - destruct (snd _); [reflexivity|]. apply brackets_le; [|exact N]. intros st0. apply fSliceLoop_le, IH.
    - destruct (snd _); [reflexivity|]. destruct s as [r|]; [|reflexivity]. apply brackets_le; [|exact N]. intros st0. apply fSliceLoop_le, IH.
    - destruct (snd _); [reflexivity|]. apply brackets_le; [|exact N]. intros st0. apply fSliceLoop_le, IH.
    - destruct (snd _); [reflexivity|]. destruct m as [r|]; [|reflexivity]. apply brackets_le; [|exact N]. intros st0. destruct (if SortKeys cs then _ else _); [|reflexivity]. apply fMapLoop_le, IH.
    - destruct (snd _); [reflexivity|]. apply brackets_le; [|exact N]. intros st0. apply fStructLoop_le. exact IH.
  Qed.
  Lemma format_le f g ro : (f <= g)%nat -> fle (format f ro) (format g ro).
  Proof. induction 1 as [|g L IH]; intros v st N; [reflexivity|]. rewrite (format_S g ro) by (rewrite IH; auto). apply IH. exact N. Qed.

  (** ** What stays in the map of pointers *)
  Definition fsame (st st' : fst_) : Prop := fDepth st' = fDepth st /\ kept (fDepth st) (fPtrs st) (fPtrs st').
  Lemma fsame_refl st : fsame st st. Proof. split; [reflexivity|apply kept_refl]. Qed.
  Lemma fsame_eq st st' : fDepth st' = fDepth st -> fPtrs st' = fPtrs st -> fsame st st'. Proof. intros D P. split; [exact D|rewrite P; apply kept_refl]. Qed.
  Ltac same0 := apply fsame_eq; reflexivity.
  Lemma fsame_trans a b c : fsame a b -> fsame b c -> fsame a c.
  Proof. intros [A1 A2] [B1 B2]. split; [congruence|]. rewrite A1 in B2. eapply kept_trans; eauto. Qed.
  Definition fsameAll (f : sval -> fst_ -> fres) : Prop := forall v st st', f v st = FEnd st' -> fsame st st'.
  Lemma fUnpack_same f v st st' : fsameAll f -> fUnpack f v st = FEnd st' -> fsame st st'.
  Proof. intros A E. destruct v as [| |ty [w|]| | | | |]; cbn [fUnpack] in E; apply A in E; exact E. Qed.
  Lemma fSliceLoop_same f : fsameAll f -> forall l first st st', fSliceLoop f first l st = FEnd st' -> fsame st st'.
  Proof.
    intros A. induction l as [|v l IH]; intros first st st' E; [injection E as <-; apply fsame_refl|]. cbn [fSliceLoop] in E. match type of E with fbind ?x _ = _ => destruct x as [s| |] eqn:E1 end; try discriminate.
    cbn [fbind] in E. apply (fUnpack_same f v _ _ A) in E1. apply IH in E. eapply fsame_trans; [|eapply fsame_trans; [exact E1|exact E]]. destruct first; same0.
  Qed.
  Lemma fStructLoop_same f : (forall ro, fsameAll (f ro)) -> forall ro l first st st', fStructLoop sharp plus f ro first l st = FEnd st' -> fsame st st'.
  Proof.
    intros A ro. induction l as [|[[n e] v] l IH]; intros first st st' E; [injection E as <-; apply fsame_refl|]. cbn [fStructLoop] in E. match type of E with fbind ?x _ = _ => destruct x as [s| |] eqn:E1 end; try discriminate.
    cbn [fbind] in E. apply (fUnpack_same _ v _ _ (A _)) in E1. apply IH in E. eapply fsame_trans; [|eapply fsame_trans; [exact E1|exact E]]. destruct first, (plus || sharp); same0.
  Qed.
  Lemma fMapLoop_same f : fsameAll f -> forall l first st st', fMapLoop f first l st = FEnd st' -> fsame st st'.
  Proof.
    intros A. induction l as [|[k v] l IH]; intros first st st' E; [injection E as <-; apply fsame_refl|]. cbn [fMapLoop] in E. match type of E with fbind ?x _ = _ => destruct x as [s| |] eqn:E1 end; try discriminate.
    cbn [fbind] in E. apply (fUnpack_same f k _ _ A) in E1. match type of E with fbind ?x _ = _ => destruct x as [s2| |] eqn:E2 end; try discriminate. cbn [fbind] in E.
    assert (H : fsame s s2) by (destruct v; [apply (fUnpack_same f _ _ _ A) in E2; exact E2|injection E2 as <-; same0]).
    apply IH in E. eapply fsame_trans; [|eapply fsame_trans; [exact E1|eapply fsame_trans; [exact H|exact E]]]. destruct first; same0.
  Qed.
  Lemma brackets_same o c b : (forall st st', b st = FEnd st' -> fsame st st') -> forall st st', brackets cs o c b st = FEnd st' -> fsame st st'.
  Proof.
    intros A st st' E. unfold brackets in E. match type of E with fbind ?x _ = _ => destruct x as [s| |] eqn:E1 end; try discriminate. cbn [fbind] in E. injection E as <-.
    assert (H : fDepth s = S (fDepth st) /\ kept (S (fDepth st)) (fPtrs st) (fPtrs s)).
    { destruct (negb (MaxDepth cs =? 0)%nat && _); [|apply A in E1; exact E1]. injection E1 as <-. cbn. split; [reflexivity|apply kept_refl]. }
    destruct H as [D K]. split; [cbn; rewrite D; reflexivity|]. eapply kept_less with (d := S (fDepth st)); [lia|]. exact K.
  Qed.
  Lemma format_same : forall fuel ro, fsameAll (format fuel ro).
  Proof.
    induction fuel as [|fuel IH]; intros ro v st st' E; [discriminate|]. rewrite format_step in E. unfold fstep in E.
    assert (S0 : fsame st (fhead v st)) by (destruct (fhead_same v st) as [X Y]; split; [exact X|rewrite Y; apply kept_refl]).
    destruct v as [ty k|ty p|ty w|ty l|ty c s|ty c b|ty m|ty fs];
      try (match type of E with (if ?b then _ else _) = _ => destruct b; [injection E as <-; (eapply fsame_trans; [exact S0|same0])|] end).
    - injection E as <-. eapply fsame_trans; [exact S0|same0].
    - unfold formatPtr in E. destruct p as [p|].
      2:{ destruct (_ || _); injection E as <-; [same0|]. split; [reflexivity|]. cbn. apply forgetKept. }
      cbv zeta in E. destruct (chase h fuel (fDepth st) (forget (fDepth st) (fPtrs st)) (SPtr ty (Some p)) 0 []) as [c|] eqn:C; [|discriminate].
      apply chase_kept in C. destruct C as [K _]. assert (K' : kept (fDepth st) (fPtrs st) (cPtrs c)) by (eapply kept_trans; [apply forgetKept|exact K]).
      cbn [fSetPtrs fIgnT] in E.
      destruct (cNil c); [injection E as <-; destruct (sharp && _), (plus && _); (split; [reflexivity|exact K'])|]. destruct (cCycle c); [injection E as <-; destruct (sharp && _), (plus && _); (split; [reflexivity|exact K'])|].
      apply IH in E. destruct E as [E1 E2]. destruct (sharp && _), (plus && _); cbn in E1, E2; (split; [exact E1|eapply kept_trans; [exact K'|exact E2]]).
    - destruct w; injection E as <-; (eapply fsame_trans; [exact S0|same0]).
    - eapply fsame_trans; [exact S0|]. eapply brackets_same; [|exact E]. intros x y. apply fSliceLoop_same, IH.
    - destruct s as [r|]; [|injection E as <-; (eapply fsame_trans; [exact S0|same0])]. eapply fsame_trans; [exact S0|]. eapply brackets_same; [|exact E]. intros x y. apply fSliceLoop_same, IH.
    - eapply fsame_trans; [exact S0|]. eapply brackets_same; [|exact E]. intros x y. apply fSliceLoop_same, IH.
    - destruct m as [r|]; [|injection E as <-; (eapply fsame_trans; [exact S0|same0])]. eapply fsame_trans; [exact S0|]. eapply brackets_same; [|exact E]. intros x y X. destruct (if SortKeys cs then _ else _); [|discriminate].
      eapply fMapLoop_same; [apply IH|exact X].
    - eapply fsame_trans; [exact S0|]. eapply brackets_same; [|exact E]. intros x y. apply fStructLoop_same. exact IH.
  Qed.

  (** ** Loops end *)
  Section Loops.
    Variable Q : fst_ -> Prop.
    Hypothesis Qsame : forall st st', Q st -> fsame st st' -> Q st'.
    Definition fendsAll (ro : bool) (v : sval) : Prop := forall st, Q st -> exists f, format f ro v st <> FHang.
    Lemma fUnpack_ends ro v st : fendsAll ro (unpackValue v) -> Q st -> exists f, fUnpack (format f ro) v st <> FHang.
    Proof.
      intros A HQ. assert (HQ' : Q (fSetT false st)) by (eapply Qsame; [exact HQ|same0]).
      destruct v as [| |ty [w|]| | | | |]; cbn [fUnpack unpackValue] in *; first [exact (A _ HQ')|exact (A _ HQ)].
    Qed.
    Lemma fSliceLoop_ends ro : forall l, (forall v, In v l -> fendsAll ro (unpackValue v)) -> forall first st, Q st -> exists f, fSliceLoop (format f ro) first l st <> FHang.
    Proof.
      induction l as [|v l IH]; intros A first st HQ; [exists O; discriminate|].
      assert (HQ0 : Q (fSetT true (if first then st else fw [32] st))) by (eapply Qsame; [exact HQ|destruct first; same0]).
      destruct (fUnpack_ends ro v _ (A v (or_introl eq_refl)) HQ0) as (f1 & N1).
      destruct (fUnpack (format f1 ro) v (fSetT true (if first then st else fw [32] st))) as [s| |] eqn:E1; [| |congruence].
      - assert (HQ1 : Q s) by (eapply Qsame; [exact HQ0|eapply fUnpack_same; [apply format_same|exact E1]]).
        destruct (IH (fun x I => A x (or_intror I)) false s HQ1) as (f2 & N2). exists (f1 + f2)%nat. cbn [fSliceLoop].
        rewrite (fUnpack_le _ _ _ _ (format_le f1 (f1 + f2) ro ltac:(lia))) by congruence. rewrite E1. cbn [fbind].
        rewrite (fSliceLoop_le _ _ (format_le f2 (f1 + f2) ro ltac:(lia))) by exact N2. exact N2.
      - exists f1. cbn [fSliceLoop]. rewrite E1. discriminate.
    Qed.
    Lemma fStructLoop_ends : forall l, (forall n e v, In (n, e, v) l -> forall ro, fendsAll ro (unpackValue v)) -> forall ro first st, Q st -> exists f, fStructLoop sharp plus (format f) ro first l st <> FHang.
    Proof.
      induction l as [|[[n e] v] l IH]; intros A ro first st HQ; [exists O; discriminate|]. cbn [fStructLoop].
      remember (if plus || sharp then fw (n ++ [58]) (if first then st else fw [32] st) else (if first then st else fw [32] st)) as st0 eqn:E0.
      assert (HQ0 : Q st0) by (eapply Qsame; [exact HQ|rewrite E0; destruct first, (plus || sharp); same0]).
      destruct (fUnpack_ends (ro || negb e) v _ (A n e v (or_introl eq_refl) _) HQ0) as (f1 & N1).
      destruct (fUnpack (format f1 (ro || negb e)) v st0) as [s| |] eqn:E1; [| |congruence].
      - assert (HQ1 : Q s) by (eapply Qsame; [exact HQ0|eapply fUnpack_same; [apply format_same|exact E1]]).
        destruct (IH (fun x y z I => A x y z (or_intror I)) ro false s HQ1) as (f2 & N2). exists (f1 + f2)%nat.
        rewrite (fUnpack_le _ _ _ _ (format_le f1 (f1 + f2) _ ltac:(lia))) by congruence. rewrite E1. cbn [fbind].
        rewrite (fStructLoop_le sharp plus _ _ (fun ro => format_le f2 (f1 + f2) ro ltac:(lia))) by exact N2. exact N2.
      - exists f1. rewrite E1. discriminate.
    Qed.
    Lemma fMapLoop_ends ro : forall l, (forall k x, In (k, x) l -> fendsAll ro (unpackValue k)) -> (forall k x, In (k, Some x) l -> fendsAll ro (unpackValue x)) -> forall first st, Q st -> exists f, fMapLoop (format f ro) first l st <> FHang.
    Proof.
      induction l as [|[k v] l IH]; intros A B first st HQ; [exists O; discriminate|].
      assert (HQ0 : Q (fSetT true (if first then st else fw [32] st))) by (eapply Qsame; [exact HQ|destruct first; same0]).
      destruct (fUnpack_ends ro k _ (A k v (or_introl eq_refl)) HQ0) as (f1 & N1).
      destruct (fUnpack (format f1 ro) k (fSetT true (if first then st else fw [32] st))) as [s| |] eqn:E1; [| |congruence]; [|exists f1; cbn [fMapLoop]; rewrite E1; discriminate].
      assert (HQ1 : Q (fSetT true (fw [58] s))) by (eapply Qsame; [exact HQ0|eapply fsame_trans; [eapply fUnpack_same; [apply format_same|exact E1]|same0]]).
      destruct v as [v|].
      - destruct (fUnpack_ends ro v _ (B k v (or_introl eq_refl)) HQ1) as (f2 & N2).
        destruct (fUnpack (format f2 ro) v (fSetT true (fw [58] s))) as [s2| |] eqn:E2; [| |congruence].
        + assert (HQ2 : Q s2) by (eapply Qsame; [exact HQ1|eapply fUnpack_same; [apply format_same|exact E2]]).
          destruct (IH (fun x y I => A x y (or_intror I)) (fun x y I => B x y (or_intror I)) false s2 HQ2) as (f3 & N3). exists (f1 + f2 + f3)%nat. cbn [fMapLoop].
          rewrite (fUnpack_le _ _ _ _ (format_le f1 (f1 + f2 + f3) ro ltac:(lia))) by congruence. rewrite E1. cbn [fbind].
          rewrite (fUnpack_le _ _ _ _ (format_le f2 (f1 + f2 + f3) ro ltac:(lia))) by congruence. rewrite E2. cbn [fbind].
          rewrite (fMapLoop_le _ _ (format_le f3 (f1 + f2 + f3) ro ltac:(lia))) by exact N3. exact N3.
        + exists (f1 + f2)%nat. cbn [fMapLoop]. rewrite (fUnpack_le _ _ _ _ (format_le f1 (f1 + f2) ro ltac:(lia))) by congruence. rewrite E1. cbn [fbind].
          rewrite (fUnpack_le _ _ _ _ (format_le f2 (f1 + f2) ro ltac:(lia))) by congruence. rewrite E2. discriminate.
      - assert (HQ2 : Q (fw (bs "<invalid>") (fSetT true (fw [58] s)))) by (eapply Qsame; [exact HQ1|same0]).
        destruct (IH (fun x y I => A x y (or_intror I)) (fun x y I => B x y (or_intror I)) false _ HQ2) as (f3 & N3). exists (f1 + f3)%nat. cbn [fMapLoop].
        rewrite (fUnpack_le _ _ _ _ (format_le f1 (f1 + f3) ro ltac:(lia))) by congruence. rewrite E1. cbn [fbind].
        rewrite (fMapLoop_le _ _ (format_le f3 (f1 + f3) ro ltac:(lia))) by exact N3. exact N3.
    Qed.
  End Loops.

  Hypothesis perm : forall less l, Permutation (sortBy less l) l.
  Lemma brackets_ends o c (b : nat -> fst_ -> fres) st : (tooDeep cs (S (fDepth st)) = false -> exists f, b f (fSetDepth (S (fDepth st)) (fw o st)) <> FHang) -> exists f, brackets cs o c (b f) st <> FHang.
  Proof.
    intros A. unfold brackets. cbn [fw fDepth]. cbn [fSetDepth fDepth]. fold (tooDeep cs (S (fDepth st))). destruct (tooDeep cs (S (fDepth st))) eqn:TD; [exists O; discriminate|].
    destruct (A eq_refl) as (f & N). exists f. cbn [fw fDepth] in N. destruct (b f _); [discriminate|discriminate|]. intros _. apply N. reflexivity.
  Qed.
  Lemma fbasic_ends Q ty k ro : fendsAll Q ro (SBasic ty k).
  Proof. intros st _. exists 1%nat. rewrite format_step. unfold fstep. destruct (snd _); discriminate. Qed.
  Lemma fvalue_ends (v : sval) (st : fst_) : isPtr v = false ->
    (tooDeep cs (S (fDepth st)) = false -> forall x, inside h x v -> forall ro, fendsAll (fun st' => fDepth st' = S (fDepth st) /\ kept (S (fDepth st)) (fPtrs st) (fPtrs st')) ro x) ->
    forall ro, exists f, format f ro v st <> FHang.
  Proof.
    intros P A ro. destruct (fhead_same v st) as [D1 P1].
    remember (fun st' => fDepth st' = S (fDepth st) /\ kept (S (fDepth st)) (fPtrs st) (fPtrs st')) as Q eqn:EQ.
    assert (Q1 : forall o, Q (fSetDepth (S (fDepth (fhead v st))) (fw o (fhead v st)))) by (intros o; rewrite EQ; cbn [fSetDepth fw fDepth fPtrs]; rewrite D1, P1; split; [reflexivity|apply kept_refl]).
    assert (QS : forall a b, Q a -> fsame a b -> Q b).
    { rewrite EQ. intros a b [X1 X2] [Y1 Y2]. split; [congruence|]. rewrite X1 in Y2. eapply kept_trans; eauto. }
    clear EQ P1. assert (H : exists f, fstep decimal quote method valueEq spewKey sortBy cs h sharp plus (format f) f ro v st <> FHang).
    { unfold fstep. revert Q1 D1. generalize (fhead v st). intros st1 Q1 D1. rewrite <- D1 in A.
      destruct v as [ty k|ty p|ty w|ty l|ty c s|ty c b|ty m|ty fs]; try discriminate P;
        try (match goal with |- context[if snd ?x then _ else _] => destruct (snd x) end; [exists O; discriminate|]).
      - exists O. discriminate.
      - exists O. destruct w; discriminate.
      - apply (brackets_ends (bs "[") (bs "]") (fun f => fSliceLoop (format f ro) true l)). intros TD. specialize (A TD). apply (fSliceLoop_ends Q QS); [|apply Q1]. intros v I. apply A. constructor. exact I.
      - destruct s as [r|]; [|exists O; discriminate]. apply (brackets_ends (bs "[") (bs "]") (fun f => fSliceLoop (format f ro) true (elems h r))). intros TD. specialize (A TD). apply (fSliceLoop_ends Q QS); [|apply Q1]. intros v I. apply A. constructor. exact I.
      - apply (brackets_ends (bs "[") (bs "]") (fun f => fSliceLoop (format f ro) true (map (fun c => SBasic (bs "uint8") (BUint c)) b))). intros _. apply (fSliceLoop_ends Q QS); [|apply Q1].
        intros v I. apply in_map_iff in I. destruct I as (n & <- & _). apply fbasic_ends.
      - destruct m as [r|]; [|exists O; discriminate]. apply (brackets_ends (bs "map[") (bs "]") (fun f st => match (if SortKeys cs then sortValues method valueEq spewKey sortBy cs ro (entries h r) else Some (entries h r)) with
            | None => FPanic | Some l => fMapLoop (format f ro) true l st end)). intros TD. specialize (A TD).
        destruct (if SortKeys cs then sortValues method valueEq spewKey sortBy cs ro (entries h r) else Some (entries h r)) as [l|] eqn:SO; [|exists O; discriminate].
        apply sortedEntries_perm in SO; [|exact perm].
        apply (fMapLoop_ends Q QS); [| |apply Q1]; intros k x I; apply (Permutation_in _ SO) in I; apply A; econstructor; exact I.
      - apply (brackets_ends (bs "{") (bs "}") (fun f => fStructLoop sharp plus (format f) ro true fs)). intros TD. specialize (A TD). apply (fStructLoop_ends Q QS); [|apply Q1]. intros n e v I. apply A. econstructor. exact I. }
    destruct H as (f & N). exists (S f). rewrite format_step. exact N.
  Qed.
  Lemma fptr_ends (v : sval) (st : fst_) : isPtr v = true -> Acc (pointsTo h) v ->
    (forall f c, chase h f (fDepth st) (forget (fDepth st) (fPtrs st)) v 0 [] = Some c -> cNil c = false -> cCycle c = false ->
      forall ro st', fDepth st' = fDepth st -> fPtrs st' = cPtrs c -> exists f, format f ro (cVe c) st' <> FHang) ->
    forall ro, exists f, format f ro v st <> FHang.
  Proof.
    intros P HA A ro. destruct v as [|ty p| | | | | |]; try discriminate. destruct p as [p|].
    2:{ exists 1%nat. rewrite format_step. cbn [fstep formatPtr]. destruct (_ || _); discriminate. }
    destruct (chase_ends h (fDepth st) _ HA (forget (fDepth st) (fPtrs st)) 0 []) as (f1 & c & C). specialize (A _ _ C).
    assert (G : forall st2, fDepth st2 = fDepth st -> fPtrs st2 = cPtrs c -> exists f, (f1 <= f)%nat /\ (if cNil c then FEnd (fw (bs "<nil>") st2) else if cCycle c then FEnd (fw (bs "<shown>") st2) else format f ro (cVe c) (fSetT true st2)) <> FHang).
    { intros st2 D2 P2. destruct (cNil c); [exists f1; split; [lia|discriminate]|]. destruct (cCycle c); [exists f1; split; [lia|discriminate]|].
      destruct (A eq_refl eq_refl ro (fSetT true st2) D2 P2) as (f2 & N2). exists (f1 + f2)%nat. split; [lia|]. rewrite (format_le f2 (f1 + f2) ro ltac:(lia)) by exact N2. exact N2. }
    match type of G with forall st2, _ -> _ -> exists f, _ /\ _ => idtac end.
    remember (if plus && (0 <? List.length (cChain c))%nat then fw (bs "(" ++ chainText (cChain c) ++ bs ")")
        (if sharp && negb (fIgnT st) then fw (bs "(" ++ repeatBytes (bs "*") (cInd c) ++ typeText (cVe c) ++ bs ")") (fSetPtrs (cPtrs c) st)
          else fw (bs "<" ++ repeatBytes (bs "*") (cInd c + (if cNil c || cCycle c then countStars (typeText (cVe c)) else 0))%nat ++ bs ">") (fSetPtrs (cPtrs c) st))
        else (if sharp && negb (fIgnT st) then fw (bs "(" ++ repeatBytes (bs "*") (cInd c) ++ typeText (cVe c) ++ bs ")") (fSetPtrs (cPtrs c) st)
          else fw (bs "<" ++ repeatBytes (bs "*") (cInd c + (if cNil c || cCycle c then countStars (typeText (cVe c)) else 0))%nat ++ bs ">") (fSetPtrs (cPtrs c) st))) as st2 eqn:E2.
    destruct (G st2) as (f & L & N); [rewrite E2; destruct (plus && _), (sharp && _); reflexivity|rewrite E2; destruct (plus && _), (sharp && _); reflexivity|].
    exists (S f). rewrite format_step. unfold fstep, formatPtr. cbv zeta. rewrite (chase_le _ _ _ _ _ _ _ _ _ L C). cbn [fSetPtrs fIgnT]. rewrite E2 in N. exact N.
  Qed.
  Lemma format_ends v0 addrs : chains_end h v0 -> nesting_ends h v0 -> addresses_in h v0 addrs -> forall ro st, exists f, format f ro v0 st <> FHang.
  Proof.
    intros Hchains Hnest Haddrs. assert (G : forall n w, reach h v0 w -> forall st, (avail addrs (fPtrs st) (if isPtr w then fDepth st else S (fDepth st)) <= n)%nat -> forall ro, exists f, format f ro w st <> FHang).
    { induction n as [n IHn] using (well_founded_induction lt_wf). intros w RW. pose proof (Hnest w RW) as HA. induction HA as [w _ IHw]. intros st AV ro. destruct (isPtr w) eqn:P.
      - apply fptr_ends; [exact P|apply Hchains, RW|]. intros f c C N Y ro' st' D' P'. pose proof (chase_end_value _ _ _ _ _ _ _ _ C N Y) as PV.
        pose proof (chase_avail h v0 addrs Haddrs _ _ _ _ _ _ _ C P N Y RW) as LT. rewrite (avail_kept addrs _ _ _ (forgetKept _ _)) in LT.
        apply (IHn (avail addrs (cPtrs c) (S (fDepth st))) ltac:(lia) (cVe c) (chase_reach h v0 _ _ _ _ _ _ _ C RW N)). rewrite PV, D', P'. lia.
      - apply fvalue_ends; [exact P|]. intros _ x IX ro' st' [D' K']. apply IHw; [exact IX|eapply reach_inside; eauto|]. pose proof (avail_kept addrs _ _ _ K') as AK. pose proof (avail_S addrs (fPtrs st') (S (fDepth st))) as AS.
        rewrite D'. destruct (isPtr x); lia. }
    intros ro st. eapply G; [constructor|apply le_n].
  Qed.
  Lemma format_ends_max v0 : MaxDepth cs <> O -> chains_end h v0 -> forall ro st, exists f, format f ro v0 st <> FHang.
  Proof.
    intros M Hchains. assert (G : forall n w, reach h v0 w -> forall st, (S (MaxDepth cs) - fDepth st <= n)%nat -> forall ro, exists f, format f ro w st <> FHang).
    { induction n as [|n IH]; intros w RW st L ro.
      - assert (V : forall x st' ro, isPtr x = false -> fDepth st' = fDepth st -> exists f, format f ro x st' <> FHang).
        { intros x st' ro' Px Dx. apply fvalue_ends; [exact Px|]. intros TD. unfold tooDeep in TD. apply Nat.eqb_neq in M. rewrite M in TD. cbn in TD. apply Nat.leb_gt in TD. lia. }
        destruct (isPtr w) eqn:P; [|apply V; auto]. apply fptr_ends; [exact P|apply Hchains, RW|]. intros f c C N Y ro' st' D' P'. apply V; [eapply chase_end_value; eauto|exact D'].
      - assert (V : forall x st' ro, reach h v0 x -> isPtr x = false -> fDepth st' = fDepth st -> exists f, format f ro x st' <> FHang).
        { intros x st' ro' Rx Px Dx. apply fvalue_ends; [exact Px|]. intros _ y IY ro'' st'' [D'' _]. apply IH; [eapply reach_inside; eauto|]. lia. }
        destruct (isPtr w) eqn:P; [|apply V; auto]. apply fptr_ends; [exact P|apply Hchains, RW|]. intros f c C N Y ro' st' D' P'. apply V; [eapply chase_reach; eauto|eapply chase_end_value; eauto|exact D']. }
    intros ro st. eapply G; [constructor|apply le_n].
  Qed.
End Ends.
