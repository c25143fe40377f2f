(** C112: the cache of reflect2's Types; C113: types by name and by kind *)
From Verif Require Import Base RTypeModel RTypeSpec.
From Coq Require Import Lia.
Open Scope Z_scope.
Open Scope list_scope.

Section C112.
  Variable kind : Z -> Z.
  Variable numMethod : Z -> Z.
  Variable safe : bool.
  Notation step := (step kind numMethod safe).
  Notation run := (run kind numMethod safe).
  Notation Type2 := (Type2 kind numMethod safe).
  Notation TypeOf := (TypeOf kind numMethod safe).
  Definition right (t : Z) (o : obj) : Prop := oType1 o = t /\ rightImpl safe (kind t) (numMethod t) (oImpl o).
  Lemma implOf_right t : rightImpl safe (kind t) (numMethod t) (implOf kind numMethod safe t).
  Proof.
    unfold implOf. destruct (kind t =? 25) eqn:A; [apply Z.eqb_eq in A; rewrite A; destruct safe; constructor|]. destruct (kind t =? 17) eqn:B; [apply Z.eqb_eq in B; rewrite B; destruct safe; constructor; cbn; auto|].
    destruct (kind t =? 23) eqn:C; [apply Z.eqb_eq in C; rewrite C; destruct safe; constructor; cbn; auto|]. destruct (kind t =? 21) eqn:D; [apply Z.eqb_eq in D; rewrite D; destruct safe; constructor; cbn; auto|].
    destruct ((kind t =? 22) || (kind t =? 18) || (kind t =? 19)) eqn:E.
    { rewrite !orb_true_iff, !Z.eqb_eq in E. destruct safe; constructor; cbn; lia. }
    rewrite !orb_false_iff, !Z.eqb_neq in E. destruct (kind t =? 20) eqn:F.
    { apply Z.eqb_eq in F. rewrite F. destruct safe; [constructor; cbn; auto|]. destruct (numMethod t =? 0) eqn:G; [apply Z.eqb_eq in G; rewrite G; constructor|apply Z.eqb_neq in G; constructor; exact G]. }
    rewrite ?Z.eqb_neq in *. destruct safe; constructor; cbn; lia.
  Qed.
  Lemma load_in k o c : load k c = Some o -> In (k, o) c.
  Proof. induction c as [|[k' o'] c IH]; cbn; [discriminate|]. destruct (k =? k') eqn:E; [intros X; injection X as <-; apply Z.eqb_eq in E; subst; auto|auto]. Qed.
  (** What was handed out so far, and the cache *)
  Definition known (s : st) (l : log) (o : obj) : Prop := In (oType1 o, o) (cache s) \/ exists g t, In (g, t, RType o) l.
  Definition inv (s : st) (l : log) : Prop :=
    (forall k o, In (k, o) (cache s) -> k <> 0 /\ right k o) /\
    (forall g t r, In (g, t, r) l -> (t = 0 /\ r = RPanic) \/ (t <> 0 /\ exists o, r = RType o /\ right t o)) /\
    (forall o, known s l o -> oId o < made s) /\
    (forall o o', known s l o -> known s l o' -> oId o = oId o' -> o = o').
  Lemma inv_step s l e s' l' : inv s l -> step s e = Some (s', l') -> inv s' (l ++ l').
  Proof.
    intros (I1 & I2 & I3 & I4) E.
    assert (Same : forall s2 l2, cache s2 = cache s -> made s2 = made s -> (forall g t r, In (g, t, r) l2 -> (t = 0 /\ r = RPanic) \/ (exists o, r = RType o /\ In (t, o) (cache s))) -> inv s2 (l ++ l2)).
    { intros s2 l2 Ec Em H. assert (K : forall o, known s2 (l ++ l2) o -> known s l o).
      { intros o [X|(g & t & X)]; [left; rewrite <- Ec; exact X|]. apply in_app_iff in X. destruct X as [X|X]; [right; eauto|]. destruct (H _ _ _ X) as [[_ Y]|(o' & Y & Z0)]; [discriminate|].
        injection Y as <-. left. destruct (I1 _ _ Z0) as (_ & T & _). rewrite T. exact Z0. }
      repeat split; try (rewrite Ec in *; rewrite ?Em in *).
      - exact (proj1 (I1 _ _ H0)).
      - exact (proj1 (proj2 (I1 _ _ H0))).
      - exact (proj2 (proj2 (I1 _ _ H0))).
      - intros g t r X. apply in_app_iff in X. destruct X as [X|X]; [eauto|]. destruct (H _ _ _ X) as [Y|(o & -> & Z0)]; [auto|]. right. destruct (I1 _ _ Z0) as (A & B). eauto.
      - intros o X. rewrite Em. auto.
      - intros o o' X Y. auto. }
    assert (Hit : forall g t o s2, load t (cache s) = Some o -> cache s2 = cache s -> made s2 = made s -> inv s2 (l ++ [(g, t, RType o)])).
    { intros g t o s2 L Ec Em. apply Same; auto. intros g0 t0 r [X|[]]. injection X as <- <- <-. right. exists o. split; [reflexivity|apply load_in; exact L]. }
    assert (None_ : forall s2, cache s2 = cache s -> made s2 = made s -> inv s2 (l ++ [])) by (intros s2 Ec Em; apply Same; auto; intros g t r []).
    destruct e as [g t|g t|g]; cbn [RTypeModel.step] in E.
    - destruct (at_ g (pending s)); [discriminate|]. destruct (load t (cache s)) eqn:L; injection E as <- <-; [eapply Hit; eauto|apply None_; reflexivity].
    - destruct (at_ g (pending s)); [discriminate|]. destruct (load t (cache s)) eqn:L; injection E as <- <-; [eapply Hit; eauto|apply None_; reflexivity].
    - destruct (at_ g (pending s)) as [[t|t]|]; [| |discriminate].
      + destruct (load t (cache s)) eqn:L; injection E as <- <-; [eapply Hit; eauto|apply None_; reflexivity].
      + destruct (t =? 0) eqn:T.
        { injection E as <- <-. apply Same; auto. intros g0 t0 r [X|[]]. injection X as <- <- <-. left. apply Z.eqb_eq in T. auto. }
        apply Z.eqb_neq in T. injection E as <- <-. set (o := {| oId := made s; oImpl := implOf kind numMethod safe t; oType1 := t |}). set (s2 := {| cache := _; made := _; pending := _ |}).
        assert (K : forall x, known s2 (l ++ [(g, t, RType o)]) x -> x = o \/ known s l x).
        { intros x [[X|X]|(g0 & t0 & X)].
          - injection X as X0 X1. auto.
          - right. left. exact X.
          - apply in_app_iff in X. destruct X as [X|[X|[]]]; [right; right; eauto|]. injection X as _ _ X. auto. }
        split; [|split; [|split]].
        * intros k x [X|X]; [injection X as <- <-|auto]. split; [exact T|]. split; [reflexivity|apply implOf_right].
        * intros g0 t0 r X. apply in_app_iff in X. destruct X as [X|[X|[]]]; [eauto|]. injection X as <- <- <-. right. split; [exact T|]. exists o. split; [reflexivity|]. split; [reflexivity|apply implOf_right].
        * intros x X. cbn [made s2]. destruct (K _ X) as [->|Y]; [cbn; lia|]. apply I3 in Y. lia.
        * intros x y X Y N. destruct (K _ X) as [->|X']; destruct (K _ Y) as [->|Y']; [reflexivity| | |auto]; [apply I3 in Y'; cbn in N; lia|apply I3 in X'; cbn in N; lia].
  Qed.
  Lemma inv_run evs : forall s l s' l', inv s l -> run s evs = Some (s', l') -> inv s' (l ++ l').
  Proof.
    induction evs as [|e evs IH]; intros s l s' l' I E; cbn [RTypeModel.run] in E.
    - injection E as <- <-. rewrite app_nil_r. exact I.
    - destruct (step s e) as [[s1 l1]|] eqn:E1; [|discriminate]. cbn [obind] in E. destruct (run s1 evs) as [[s2 l2]|] eqn:E2; [|discriminate]. cbn [obind] in E. injection E as <- <-.
      rewrite app_assoc. eapply IH; [|exact E2]. eapply inv_step; eauto.
  Qed.
  Lemma inv_Froze : inv Froze [].
  Proof. split; [intros k o []|]. split; [intros g t r []|]. assert (X : forall o, ~ known Froze [] o) by (intros o [[]|(g & t & [])]). split; [intros o K|intros o o' K]; destruct (X o K). Qed.

  (** Whatever goroutines do: nil panics, and every other type gets a Type that says it is that type and is implemented for its kind *)
  Theorem C112_results evs s l g t r : run Froze evs = Some (s, l) -> In (g, t, r) l ->
    (t = 0 /\ r = RPanic) \/ (t <> 0 /\ exists o, r = RType o /\ right t o).
  Proof. intros E I. destruct (inv_run _ _ _ _ _ inv_Froze E) as (_ & H & _). apply (H g). exact I. Qed.
  (** Different types never get the same Type *)
  Theorem C112_different evs s l g t o g' t' o' : run Froze evs = Some (s, l) -> In (g, t, RType o) l -> In (g', t', RType o') l -> oId o = oId o' -> t = t' /\ o = o'.
  Proof.
    intros E I I' N. destruct (inv_run _ _ _ _ _ inv_Froze E) as (_ & H & _ & U). assert (X : o = o') by (apply U; auto; right; eauto). split; [|exact X]. subst o'.
    destruct (H _ _ _ I) as [[_ Y]|(_ & x & Y & A & _)]; [discriminate|]. destruct (H _ _ _ I') as [[_ Y']|(_ & x' & Y' & A' & _)]; [discriminate|]. injection Y as <-. injection Y' as <-. cbn [app] in *. congruence.
  Qed.
  (** A call is over after at most two more accesses to the cache; nothing waits *)
  Theorem C112_ends s g p : at_ g (pending s) = Some p -> exists s1 l1, step s (EStep g) = Some (s1, l1) /\
    ((at_ g (pending s1) = None /\ exists t r, l1 = [(g, t, r)]) \/ (l1 = [] /\ exists s2 t r, step s1 (EStep g) = Some (s2, [(g, t, r)]) /\ at_ g (pending s2) = None)).
  Proof.
    intros A. assert (L : forall q, at_ g (leave g q) = None).
    { induction q as [|[g' x] q IH]; [reflexivity|]. cbn [leave filter fst]. destruct (g' =? g) eqn:E; cbn [negb]; [exact IH|]. cbn [at_]. rewrite Z.eqb_sym, E. exact IH. }
    assert (W : forall s0 t, at_ g (pending s0) = Some (PWrap t) -> exists s1 r, step s0 (EStep g) = Some (s1, [(g, t, r)]) /\ at_ g (pending s1) = None).
    { intros s0 t X. cbn [RTypeModel.step]. rewrite X. destruct (t =? 0); eexists; eexists; (split; [reflexivity|apply L]). }
    destruct p as [t|t].
    - cbn [RTypeModel.step]. rewrite A. destruct (load t (cache s)) eqn:E.
      + eexists. eexists. split; [reflexivity|]. left. split; [apply L|eauto].
      + eexists. eexists. split; [reflexivity|]. right. split; [reflexivity|]. destruct (W {| cache := cache s; made := made s; pending := (g, PWrap t) :: leave g (pending s) |} t) as (s2 & r & X & Y); [cbn; rewrite Z.eqb_refl; reflexivity|]. eauto 6.
    - destruct (W s t A) as (s1 & r & X & Y). exists s1, [(g, t, r)]. split; [exact X|]. left. eauto.
  Qed.
  (** Once a type is in the cache and nobody is about to put it there, everybody gets the same Type for it, for ever *)
  Theorem C112_settled evs : forall s t o, load t (cache s) = Some o -> (forall g, ~ In (g, PWrap t) (pending s)) -> forall s' l g r, run s evs = Some (s', l) -> In (g, t, r) l -> r = RType o.
  Proof.
    assert (Lv : forall g q x, In x (leave g q) -> In x q) by (intros g q x I; apply filter_In in I; tauto).
    assert (At : forall g q x, at_ g q = Some x -> In (g, x) q).
    { intros g q x. induction q as [|[g' y] q IH]; cbn; [discriminate|]. destruct (g =? g') eqn:E; [intros X; injection X as <-; apply Z.eqb_eq in E; subst; auto|auto]. }
    induction evs as [|e evs IH]; intros s t o Lo No s' l g r E I; cbn [RTypeModel.run] in E; [injection E as <- <-; destruct I|].
    destruct (step s e) as [[s1 l1]|] eqn:E1; [|discriminate]. cbn [obind] in E. destruct (run s1 evs) as [[s2 l2]|] eqn:E2; [|discriminate]. cbn [obind] in E. injection E as <- <-.
    assert (X : load t (cache s1) = Some o /\ (forall g0, ~ In (g0, PWrap t) (pending s1)) /\ forall g0 r0, In (g0, t, r0) l1 -> r0 = RType o).
    { destruct e as [g0 t0|g0 t0|g0]; cbn [RTypeModel.step] in E1.
      - destruct (at_ g0 (pending s)); [discriminate|]. destruct (load t0 (cache s)) eqn:L; injection E1 as <- <-.
        + split; [exact Lo|]. split; [exact No|]. intros g1 r1 [J|[]]. injection J as -> -> <-. congruence.
        + split; [exact Lo|]. split; [|intros g1 r1 []]. intros g1 [J|J]; [discriminate|exact (No _ J)].
      - destruct (at_ g0 (pending s)); [discriminate|]. destruct (load t0 (cache s)) eqn:L; injection E1 as <- <-.
        + split; [exact Lo|]. split; [exact No|]. intros g1 r1 [J|[]]. injection J as -> -> <-. congruence.
        + split; [exact Lo|]. split; [|intros g1 r1 []]. intros g1 [J|J]; [injection J as -> ->; congruence|exact (No _ J)].
      - destruct (at_ g0 (pending s)) as [[t0|t0]|] eqn:A; [| |discriminate].
        + destruct (load t0 (cache s)) eqn:L; injection E1 as <- <-; cbn [cache pending].
          * split; [exact Lo|]. split; [intros g1 J; exact (No _ (Lv _ _ _ J))|]. intros g1 r1 [J|[]]. injection J as -> -> <-. congruence.
          * split; [exact Lo|]. split; [|intros g1 r1 []]. intros g1 [J|J]; [injection J as -> ->; congruence|exact (No _ (Lv _ _ _ J))].
        + apply At in A. assert (D : t0 <> t) by (intros ->; exact (No _ A)). destruct (t0 =? 0); injection E1 as <- <-; cbn [cache pending store load].
          * split; [exact Lo|]. split; [intros g1 J; exact (No _ (Lv _ _ _ J))|]. intros g1 r1 [J|[]]. injection J as _ J _. congruence.
          * replace (t =? t0) with false by (symmetry; apply Z.eqb_neq; congruence). split; [exact Lo|]. split; [intros g1 J; exact (No _ (Lv _ _ _ J))|]. intros g1 r1 [J|[]]. injection J as _ J _. congruence. }
    destruct X as (X1 & X2 & X3). apply in_app_iff in I. destruct I as [I|I]; [eauto|]. exact (IH s1 t o X1 X2 _ _ _ _ E2 I).
  Qed.
  (** A call that nobody disturbs: it gives what TypeOf and Type2 give, and then the type is in the cache *)
  Theorem C112_alone s g t : at_ g (pending s) = None ->
    (exists evs, run s (EType2 g t :: evs) = Some (fst (Type2 s t), [(g, t, snd (Type2 s t))]) /\ Forall (eq (EStep g)) evs) /\
    (exists evs, run s (ETypeOf g t :: evs) = Some (fst (TypeOf s t), [(g, t, snd (TypeOf s t))]) /\ Forall (eq (EStep g)) evs) /\
    (t <> 0 -> exists o, snd (Type2 s t) = RType o /\ load t (cache (fst (Type2 s t))) = Some o /\ pending (fst (Type2 s t)) = pending s) /\
    TypeOf s t = Type2 s t.
  Proof.
    intros A. assert (L : leave g (pending s) = pending s).
    { revert A. generalize (pending s). induction l as [|[g' x] q IH]; intros A; [reflexivity|]. cbn in A. destruct (g =? g') eqn:E; [discriminate|]. cbn [leave filter fst]. rewrite Z.eqb_sym, E. cbn [negb]. f_equal. apply IH. exact A. }
    unfold RTypeModel.TypeOf, RTypeModel.Type2. destruct (load t (cache s)) eqn:Lo.
    - cbn [fst snd]. split; [exists []|split; [exists []|split; [eauto|reflexivity]]]; (split; [|constructor]); cbn [RTypeModel.run RTypeModel.step]; rewrite A, Lo; reflexivity.
    - assert (S : forall q, run {| cache := cache s; made := made s; pending := (g, PWrap t) :: pending s |} [EStep g] = Some (fst (Type2 s t), q) <-> q = [(g, t, snd (Type2 s t))]).
      { intros q. unfold RTypeModel.Type2. rewrite Lo. cbn [RTypeModel.run RTypeModel.step pending at_ cache made]. rewrite Z.eqb_refl. cbn [leave filter fst]. rewrite Z.eqb_refl. cbn [negb]. fold (leave g (pending s)). rewrite L.
        destruct s as [c m p]. cbn [cache made pending]. destruct (t =? 0); cbn [obind app fst snd]; (split; [intros X; injection X as <-; reflexivity|intros ->; reflexivity]). }
      unfold RTypeModel.Type2 in S. rewrite Lo in S.
      split; [|split; [|split; [|reflexivity]]].
      + exists [EStep g]. split; [|repeat constructor]. change (run s [EType2 g t; EStep g]) with (let? (s, l) := step s (EType2 g t) in let? (s, l') := run s [EStep g] in Some (s, l ++ l')). cbn [RTypeModel.step]. rewrite A, Lo. cbn [obind].
        rewrite (proj2 (S _) eq_refl). reflexivity.
      + exists [EStep g; EStep g]. split; [|repeat constructor]. change (run s [ETypeOf g t; EStep g; EStep g]) with (let? (s, l) := step s (ETypeOf g t) in let? (s, l') := (let? (s, l) := step s (EStep g) in let? (s, l') := run s [EStep g] in Some (s, l ++ l')) in Some (s, l ++ l')).
        cbn [RTypeModel.step]. rewrite A, Lo. cbn [obind pending cache made at_]. rewrite Z.eqb_refl, Lo. cbn [obind leave filter fst]. rewrite Z.eqb_refl. cbn [negb]. fold (leave g (pending s)). rewrite L, (proj2 (S _) eq_refl). reflexivity.
      + intros T. destruct (t =? 0) eqn:E; [apply Z.eqb_eq in E; contradiction|]. cbn. rewrite Z.eqb_refl. eauto.
  Qed.
End C112.

(** Every two calls for a type get the same Type, so that Types can be compared with == *)
Definition C112_full : Prop := forall kind numMethod safe evs s l g g' t o o',
  run kind numMethod safe Froze evs = Some (s, l) -> In (g, t, RType o) l -> In (g', t, RType o') l -> o = o'.
(** Two goroutines that ask for a type for the first time get different ones *)
Definition intKind (t : Z) : Z := if t =? 5 then 22 else if t =? 6 then 25 else 2.
Definition noMethods (t : Z) : Z := 0.
Definition race : list ev := [EType2 1 7; ETypeOf 2 7; EStep 2; EStep 1; EType2 3 7; EStep 2; EType2 3 7].
Theorem C112_race_refuted : exists s a b, run intKind noMethods false Froze race = Some (s, [(1, 7, RType a); (3, 7, RType a); (2, 7, RType b); (3, 7, RType b)]) /\ a <> b.
Proof. eexists. eexists. eexists. split; [reflexivity|discriminate]. Qed.
Theorem C112_full_refuted : ~ C112_full.
Proof.
  intros F. destruct C112_race_refuted as (s & a & b & E & N). apply N. apply (F _ _ _ _ _ _ 1 2 7 a b E); cbn; auto.
Qed.
Example C112_example :
  (exists s, run intKind noMethods false Froze [ETypeOf 1 5; EStep 1; EStep 1; ETypeOf 2 5; EType2 1 0; EStep 1] =
    Some (s, [(1, 5, RType {| oId := 0; oImpl := UPtr; oType1 := 5 |}); (2, 5, RType {| oId := 0; oImpl := UPtr; oType1 := 5 |}); (1, 0, RPanic)]) /\
    load 5 (cache s) = Some {| oId := 0; oImpl := UPtr; oType1 := 5 |} /\ pending s = []) /\
  at_ 1 (pending {| cache := []; made := 0; pending := [(1, PType2 5)] |}) = Some (PType2 5) /\ at_ 1 (pending Froze) = None.
Proof. split; [eexists; split; [reflexivity|split; reflexivity]|split; reflexivity]. Qed.

(** ** C113: types by name and by kind *)
Section C113.
  Variable kind : Z -> Z.
  Variable numMethod : Z -> Z.
  Variable String : Z -> bytes.
  Variable Elem : Z -> Z.
  Variable safe : bool.
  (** The types that a linked type stands for: the struct it points to *)
  Definition pointed (t s : Z) : Prop := kind t = 22 /\ kind (Elem t) = 25 /\ s = Elem t.
  (** and, for Go 1.5 and 1.6, the struct that its elements point to *)
  Definition pointed15 (t s : Z) : Prop := pointed t s \/ (kind t = 23 /\ kind (Elem t) = 22 /\ kind (Elem (Elem t)) = 25 /\ s = Elem (Elem t)).
  Definition goodMap (P : Z -> Z -> Prop) (l : list Z) (m : list (bytes * Z)) : Prop :=
    forall name, (exists t, lastWith (fun t => exists s, P t s /\ String s = name) l t /\ P t (named name m)) \/ ((forall t s, In t l -> P t s -> String s <> name) /\ named name m = 0).
  Lemma goodMap_app (P : Z -> Z -> Prop) l l' m m' : (forall name, (exists t, lastWith (fun t => exists s, P t s /\ String s = name) l' t /\ P t (named name m')) \/ ((forall t s, In t l' -> P t s -> String s <> name) /\ named name m' = named name m)) ->
    goodMap P l m -> goodMap P (l ++ l') m'.
  Proof.
    intros H G name. destruct (H name) as [(t & (l1 & l2 & E & Q & N) & K)|[N E]].
    - left. exists t. split; [|exact K]. exists (l ++ l1), l2. subst l'. rewrite app_assoc. auto.
    - destruct (G name) as [(t & (l1 & l2 & E1 & Q & N1) & K)|[N1 E1]].
      + left. exists t. rewrite E. split; [|exact K]. exists l1, (l2 ++ l'). rewrite E1, <- app_assoc. split; [reflexivity|]. split; [exact Q|]. intros y I. apply in_app_iff in I. destruct I as [I|I]; [auto|]. intros (s & A & B). exact (N _ _ I A B).
      + right. rewrite E. split; [|exact E1]. intros t s I. apply in_app_iff in I. destruct I as [I|I]; eauto.
  Qed.
  Lemma goodMap_one (P : Z -> Z -> Prop) l m t m' : (forall s s', P t s -> P t s' -> s = s') -> ((exists s, P t s /\ m' = (String s, s) :: m) \/ ((forall s, ~ P t s) /\ m' = m)) -> goodMap P l m -> goodMap P (l ++ [t]) m'.
  Proof.
    intros D H. apply goodMap_app. intros name. destruct H as [(s & A & ->)|[N ->]].
    - cbn [named]. destruct (list_eq_dec Z.eq_dec name (String s)) as [->|X].
      + left. exists t. split; [|exact A]. exists [], []. split; [reflexivity|]. split; [eauto|]. intros y [].
      + right. split; [|reflexivity]. intros t0 s0 [<-|[]] B. rewrite (D _ _ B A). congruence.
    - right. split; [|reflexivity]. intros t0 s0 [<-|[]] B. destruct (N _ B).
  Qed.
  Lemma pointed_det t s s' : pointed t s -> pointed t s' -> s = s'.
  Proof. intros (_ & _ & ->) (_ & _ & ->). reflexivity. Qed.
  Lemma pointed15_det t s s' : pointed15 t s -> pointed15 t s' -> s = s'.
  Proof. intros [(A & _ & ->)|(A & _ & _ & ->)] [(B & _ & ->)|(B & _ & _ & ->)]; congruence. Qed.
  Lemma load17_good l m t : goodMap pointed l m -> goodMap pointed (l ++ [t]) (load17 kind String Elem m t).
  Proof.
    apply goodMap_one; [apply pointed_det|]. unfold load17. destruct ((kind t =? 22) && (kind (Elem t) =? 25)) eqn:E.
    - apply andb_true_iff in E. rewrite !Z.eqb_eq in E. left. exists (Elem t). repeat split; tauto.
    - right. split; [|reflexivity]. intros s (A & B & _). rewrite A, B in E. discriminate.
  Qed.
  Lemma load15_good l m t : goodMap pointed15 l m -> goodMap pointed15 (l ++ [t]) (load15 kind String Elem m t).
  Proof.
    apply goodMap_one; [apply pointed15_det|]. unfold load15. destruct ((kind t =? 22) && (kind (Elem t) =? 25)) eqn:E.
    - apply andb_true_iff in E. rewrite !Z.eqb_eq in E. destruct E as [E1 E2]. rewrite E1. cbn [Z.eqb andb]. left. exists (Elem t). split; [left; repeat split; auto|reflexivity].
    - destruct ((kind t =? 23) && (kind (Elem t) =? 22) && (kind (Elem (Elem t)) =? 25)) eqn:F.
      + rewrite !andb_true_iff, !Z.eqb_eq in F. left. exists (Elem (Elem t)). split; [right; tauto|reflexivity].
      + right. split; [|reflexivity]. intros s [(A & B & _)|(A & B & C & _)]; [rewrite A, B in E; discriminate|rewrite A, B, C in F; discriminate].
  Qed.
  Lemma fold_good (f : list (bytes * Z) -> Z -> list (bytes * Z)) P : (forall l m t, goodMap P l m -> goodMap P (l ++ [t]) (f m t)) -> forall l' l m, goodMap P l m -> goodMap P (l ++ l') (fold_left f l' m).
  Proof. intros H. induction l' as [|t l' IH]; intros l m G; [rewrite app_nil_r; exact G|]. cbn [fold_left]. replace (l ++ t :: l') with ((l ++ [t]) ++ l') by (rewrite <- app_assoc; reflexivity). apply IH, H, G. Qed.
  Lemma good_nil P : goodMap P [] [].
  Proof. intros name. right. split; [intros t s []|reflexivity]. Qed.
  (** A name stands for the struct of the last linked pointer type to a struct of that name; without one, for nil *)
  Theorem C113_names15 links : goodMap pointed15 (List.concat links) (loadGo15Types kind String Elem links).
  Proof.
    unfold loadGo15Types. assert (G : forall ll l m, goodMap pointed15 l m -> goodMap pointed15 (l ++ List.concat ll) (fold_left (fun m l => fold_left (load15 kind String Elem) l m) ll m)).
    { induction ll as [|l0 ll IH]; intros l m H; cbn [fold_left List.concat]; [rewrite app_nil_r; exact H|]. rewrite app_assoc. apply IH. apply fold_good; [apply load15_good|exact H]. }
    apply (G links [] []). apply good_nil.
  Qed.
  (** The types of all sections *)
  Fixpoint linked (resolve : Z -> Z -> Z) (sections : list Z) (offset : list (list Z)) : list Z :=
    match sections, offset with r :: sections, offs :: offset => map (resolve r) offs ++ linked resolve sections offset | _, _ => [] end.
  Theorem C113_names17 resolve sections offset : (List.length offset <= List.length sections)%nat ->
    exists m, loadSections kind String Elem resolve sections offset [] = Some m /\ goodMap pointed (linked resolve sections offset) m.
  Proof.
    assert (G : forall ofs secs l m, goodMap pointed l m -> (List.length ofs <= List.length secs)%nat ->
      exists m', loadSections kind String Elem resolve secs ofs m = Some m' /\ goodMap pointed (l ++ linked resolve secs ofs) m').
    { induction ofs as [|offs offset' IH]; intros sections' l m H L; cbn [loadSections].
      - exists m. split; [reflexivity|]. destruct sections'; cbn [linked]; rewrite app_nil_r; exact H.
      - destruct sections' as [|r sections']; [cbn in L; lia|]. cbn [linked]. rewrite app_assoc. apply IH; [|cbn in L; lia].
        replace (fold_left _ offs m) with (fold_left (load17 kind String Elem) (map (resolve r) offs) m); [apply fold_good; [apply load17_good|exact H]|].
        clear. revert m. induction offs as [|o offs IH]; intros m; [reflexivity|]. cbn [map fold_left]. apply IH. }
    intros L. apply (G offset sections [] []); [apply good_nil|exact L].
  Qed.
  (** It panics exactly if there are more tables of offsets than sections *)
  Theorem C113_sections17 resolve sections offset : forall m, loadSections kind String Elem resolve sections offset m = None <-> (List.length sections < List.length offset)%nat.
  Proof.
    revert sections. induction offset as [|offs offset IH]; intros [|r sections] m; cbn [loadSections List.length]; try (split; [discriminate|lia]); try (split; [lia|reflexivity]).
    rewrite IH. lia.
  Qed.
End C113.
Section C113more.
  Variable kind : Z -> Z.
  Variable numMethod : Z -> Z.
  Variable safe : bool.
  (** TypeByName gives the Type of that struct, and panics for other names *)
  Theorem C113_name types s name : (forall k o, In (k, o) (cache s) -> k <> 0 /\ right kind numMethod safe k o) ->
    (named name types = 0 -> snd (TypeByName kind numMethod safe types s name) = RPanic) /\
    (named name types <> 0 -> exists o, snd (TypeByName kind numMethod safe types s name) = RType o /\ oType1 o = named name types /\ snd (TypeOf kind numMethod safe s (named name types)) = RType o).
  Proof.
    intros I. unfold TypeByName, TypeOf, Type2. destruct (load (named name types) (cache s)) as [o|] eqn:L.
    - destruct (I _ _ (load_in _ _ _ L)) as (N & T & _). split; [intros X; congruence|]. intros _. exists o. auto.
    - split; intros X; [rewrite X; reflexivity|]. apply Z.eqb_neq in X. rewrite X. cbn. eauto.
  Qed.
  (** gls finds the offset of goid exactly if there is a struct runtime.g with that field; else the program does not start *)
  Theorem C113_goid fieldOffset types s : safe = false -> (forall k o, In (k, o) (cache s) -> k <> 0 /\ right kind numMethod safe k o) -> kind (named (bs "runtime.g") types) = 25 \/ named (bs "runtime.g") types = 0 ->
    goidInit kind numMethod safe fieldOffset types s = if named (bs "runtime.g") types =? 0 then None else fieldOffset (named (bs "runtime.g") types) (bs "goid").
  Proof.
    intros S I K. unfold goidInit. destruct (C113_name types s (bs "runtime.g") I) as [A B]. destruct (named (bs "runtime.g") types =? 0) eqn:Z0.
    - apply Z.eqb_eq in Z0. rewrite (A Z0). reflexivity.
    - apply Z.eqb_neq in Z0. destruct K as [K|K]; [|contradiction]. unfold TypeByName, Type2. destruct (load (named (bs "runtime.g") types) (cache s)) as [o|] eqn:L; cbn [snd].
      + destruct (I _ _ (load_in _ _ _ L)) as (_ & T & R). rewrite K, S in R. inversion R; subst; try (cbn in *; lia); rewrite T; reflexivity.
      + apply Z.eqb_neq in Z0. rewrite Z0. cbn [snd oImpl oType1]. unfold implOf. rewrite K, S. reflexivity.
  Qed.
  (** The default type of the kinds in the list is the type of the literal, the same Type as TypeOf gives; the other kinds have none *)
  Variable literal : Z -> Z.
  Lemma kindTypes_spec ks : (forall k, In k ks -> literal k <> 0) -> forall s s' m, (forall k o, In (k, o) (cache s) -> k <> 0 /\ right kind numMethod safe k o) -> kindTypes kind numMethod safe literal s ks = (s', m) ->
    (forall k o, In (k, o) (cache s') -> k <> 0 /\ right kind numMethod safe k o) /\ (forall t o, load t (cache s) = Some o -> load t (cache s') = Some o) /\
    (forall k, In k ks -> exists o, DefaultTypeOfKind m k = RType o /\ oType1 o = literal k /\ load (literal k) (cache s') = Some o) /\ (forall k, ~ In k ks -> DefaultTypeOfKind m k = RNil).
  Proof.
    induction ks as [|k ks IH]; intros NZ s s' m I E; cbn [kindTypes] in E.
    - injection E as <- <-. split; [exact I|]. split; [auto|]. split; [intros k []|reflexivity].
    - destruct (TypeOf kind numMethod safe s (literal k)) as [s1 r] eqn:E1. destruct (kindTypes kind numMethod safe literal s1 ks) as [s2 m2] eqn:E2. injection E as <- <-.
      assert (X : (forall k o, In (k, o) (cache s1) -> k <> 0 /\ right kind numMethod safe k o) /\ (forall t o, load t (cache s) = Some o -> load t (cache s1) = Some o) /\ exists o, r = RType o /\ oType1 o = literal k /\ load (literal k) (cache s1) = Some o).
      { unfold TypeOf, Type2 in E1. destruct (load (literal k) (cache s)) as [o|] eqn:L.
        - injection E1 as <- <-. split; [exact I|]. split; [auto|]. exists o. destruct (I _ _ (load_in _ _ _ L)) as (_ & T & _). auto.
        - assert (N : (literal k =? 0) = false) by (apply Z.eqb_neq, NZ; left; reflexivity). rewrite N in E1. injection E1 as <- <-. cbn [cache store]. split; [|split].
          + intros k0 o [J|J]; [injection J as <- <-|auto]. split; [apply Z.eqb_neq; exact N|]. split; [reflexivity|apply implOf_right].
          + intros t o H. cbn [load cache store]. destruct (t =? literal k) eqn:Q; [apply Z.eqb_eq in Q; subst; congruence|exact H].
          + eexists. split; [reflexivity|]. split; [reflexivity|]. cbn [load cache store]. rewrite Z.eqb_refl. reflexivity. }
      destruct X as (X1 & X2 & o & -> & To & Lo). destruct (IH (fun k H => NZ k (or_intror H)) _ _ _ X1 E2) as (Y1 & Y2 & Y3 & Y4).
      split; [exact Y1|]. split; [auto|]. cbn [DefaultTypeOfKind]. split.
      + intros k0 [<-|J]; [rewrite Z.eqb_refl; eauto|]. destruct (k0 =? k) eqn:Q; [apply Z.eqb_eq in Q; subst; eauto|auto].
      + intros k0 J. cbn in J. destruct (k0 =? k) eqn:Q; [apply Z.eqb_eq in Q; subst; tauto|]. apply Y4. tauto.
  Qed.
  Theorem C113_kinds s s' m k : (forall k, In k kinds -> literal k <> 0) -> (forall k o, In (k, o) (cache s) -> k <> 0 /\ right kind numMethod safe k o) -> kindTypes kind numMethod safe literal s kinds = (s', m) ->
    if (1 <=? k) && (k <=? 14) || (k =? 24) || (k =? 26) then exists o, DefaultTypeOfKind m k = RType o /\ oType1 o = literal k /\ snd (TypeOf kind numMethod safe s' (literal k)) = RType o
    else DefaultTypeOfKind m k = RNil.
  Proof.
    intros NZ I E. destruct (kindTypes_spec kinds NZ _ _ _ I E) as (_ & _ & A & B).
    destruct ((1 <=? k) && (k <=? 14) || (k =? 24) || (k =? 26)) eqn:Q.
    - rewrite !orb_true_iff, andb_true_iff, !Z.leb_le, !Z.eqb_eq in Q. destruct (A k) as (o & X & Y & L); [cbn; lia|]. exists o. split; [exact X|]. split; [exact Y|]. unfold TypeOf. rewrite L. reflexivity.
    - apply B. rewrite !orb_false_iff, andb_false_iff, !Z.leb_gt, !Z.eqb_neq in Q. cbn. lia.
  Qed.
End C113more.
(** init reads the types as those of Go 1.5 and 1.6 exactly for the releases 1.5, 1.5.x, 1.6 and 1.6.x *)
Theorem C113_version ver : before17 ver = true <-> exists minor rest, (minor = bs "5" \/ minor = bs "6") /\ (rest = [] \/ exists r, rest = 46 :: r) /\ ver = bs "go1." ++ minor ++ rest.
Proof.
  assert (HP : forall p s, HasPrefix s p = true <-> exists r, s = p ++ r).
  { induction p as [|x p IH]; intros s; cbn [HasPrefix app]; [split; [eauto|reflexivity]|]. destruct s as [|y s]; [split; [discriminate|intros (r & X); discriminate]|].
    rewrite andb_true_iff, Z.eqb_eq, IH. split; [intros [-> (r & ->)]; eauto|intros (r & X); injection X as -> ->; eauto]. }
  assert (SE : forall a b, streq a b = true <-> a = b) by (intros a b; unfold streq; destruct (list_eq_dec Z.eq_dec a b); split; congruence).
  unfold before17. rewrite !orb_true_iff, !SE, !HP. split.
  - intros [[[->|(r & ->)]| ->]|(r & ->)].
    + exists (bs "5"), []. auto.
    + exists (bs "5"), (46 :: r). split; [auto|]. split; [eauto|]. reflexivity.
    + exists (bs "6"), []. auto.
    + exists (bs "6"), (46 :: r). split; [auto|]. split; [eauto|]. reflexivity.
  - intros (minor & rest & [->| ->] & [->|(r & ->)] & ->); [left; left; left; reflexivity|left; left; right; exists r; reflexivity|left; right; reflexivity|right; exists r; reflexivity].
Qed.
(** A name stands for one type, every kind has a default type, and the versions before 1.7 are recognised *)
Definition C113_full : Prop :=
  (forall kind String Elem resolve sections offset m t, loadSections kind String Elem resolve sections offset [] = Some m -> In t (linked resolve sections offset) -> kind t = 22 -> kind (Elem t) = 25 -> named (String (Elem t)) m = Elem t) /\
  (forall kind numMethod safe literal s' m k, (forall k, In k kinds -> literal k <> 0) -> kindTypes kind numMethod safe literal Froze kinds = (s', m) -> 1 <= k <= 26 -> DefaultTypeOfKind m k <> RNil) /\
  (forall rest, before17 (bs "go1.6" ++ rest) = true).
(** Packages with the same last element: two structs with one name *)
Theorem C113_ambiguous_refuted : exists m, loadSections (fun t => if t <? 10 then 22 else 25) (fun _ => bs "errors.T") (fun t => t + 10) (fun r o => r + o) [0] [[1; 2]] [] = Some m /\ named (bs "errors.T") m = 12.
Proof. eexists. split; reflexivity. Qed.
(** A release candidate of Go 1.6 is taken for a newer version *)
Theorem C113_candidate_refuted : before17 (bs "go1.6rc1") = false.
Proof. reflexivity. Qed.
(** There is no default type for complex64 (15) *)
Theorem C113_complex_refuted kind numMethod safe literal s' m : (forall k, In k kinds -> literal k <> 0) -> kindTypes kind numMethod safe literal Froze kinds = (s', m) -> DefaultTypeOfKind m 15 = RNil /\ DefaultTypeOfKind m 16 = RNil.
Proof. intros N E. split; [apply (C113_kinds kind numMethod safe literal Froze s' m 15 N ltac:(intros k o []) E)|apply (C113_kinds kind numMethod safe literal Froze s' m 16 N ltac:(intros k o []) E)]. Qed.
Theorem C113_full_refuted : ~ C113_full.
Proof. intros (_ & _ & F). specialize (F (bs "rc1")). discriminate. Qed.
(** Types: 1 and 2 point to the structs 11 and 12, 3 is an int, 4 a slice of 1 *)
Definition exKind (t : Z) : Z := if t <? 3 then 22 else if t =? 3 then 2 else if t =? 4 then 23 else 25.
Definition exElem (t : Z) : Z := if t =? 4 then 1 else t + 10.
Definition exString (t : Z) : bytes := if t =? 11 then bs "runtime.g" else bs "main.T".
Example C113_example :
  loadSections exKind exString exElem (fun r o => r + o) [0; 2] [[1; 2]; [1; 2]] [] = Some [(bs "main.T", 12); (bs "runtime.g", 11)] /\
  loadSections exKind exString exElem (fun r o => r + o) [0] [[1; 2]; [1; 2]] [] = None /\
  loadGo15Types exKind exString exElem [[4; 2]] = [(bs "main.T", 12); (bs "runtime.g", 11)] /\
  goidInit exKind noMethods false (fun t n => if list_eq_dec Z.eq_dec n (bs "goid") then Some 152 else None) [(bs "main.T", 12); (bs "runtime.g", 11)] Froze = Some 152 /\
  snd (TypeByName exKind noMethods false [(bs "main.T", 12)] Froze (bs "main.U")) = RPanic /\
  before17 (bs "go1.6.4") = true /\ before17 (bs "go1.9") = false /\
  (let (s, m) := kindTypes (fun t => t) noMethods false (fun k => k) Froze kinds in DefaultTypeOfKind m 24 = RType {| oId := 14; oImpl := UType; oType1 := 24 |} /\ DefaultTypeOfKind m 25 = RNil).
Proof. split; [vm_compute; reflexivity|]. split; [vm_compute; reflexivity|]. split; [vm_compute; reflexivity|]. split; [vm_compute; reflexivity|]. split; [vm_compute; reflexivity|]. split; [vm_compute; reflexivity|]. split; [vm_compute; reflexivity|]. vm_compute. split; reflexivity. Qed.
Print Assumptions C112_results.
Print Assumptions C112_different.
Print Assumptions C112_ends.
Print Assumptions C112_settled.
Print Assumptions C112_alone.
Print Assumptions C112_race_refuted.
Print Assumptions C112_full_refuted.
Print Assumptions C113_names15.
Print Assumptions C113_names17.
Print Assumptions C113_sections17.
Print Assumptions C113_name.
Print Assumptions C113_goid.
Print Assumptions C113_kinds.
Print Assumptions C113_version.
Print Assumptions C113_ambiguous_refuted.
Print Assumptions C113_candidate_refuted.
Print Assumptions C113_complex_refuted.
Print Assumptions C113_full_refuted.
