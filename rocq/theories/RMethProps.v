(** Which type assertions on the Types of reflect2 succeed *)
From Verif Require Import Base RTypeModel RTypeSpec RTypeProps RMethModel.
From Coq Require Import String.
Open Scope Z_scope.
Open Scope list_scope.

(** The kinds an interface of reflect2 is for *)
Definition kindsOf (i : iface) (k : Z) : Prop :=
  match i with IType => True | IList => k = 17 \/ k = 23 | IArray => k = 17 | ISlice => k = 23 | IStruct => k = 25 | IMap => k = 21 | IPtr => k = 22 | IInterface => k = 20 end.
(** That a type has the methods of an interface, said without search: the name is declared at some level and at none before it, with the same signature *)
Definition hasMethod (ll : list (list meth)) (n sig : string) : Prop :=
  exists before l after, ll = before ++ l :: after /\ (forall l' s, In l' before -> ~ In (n, s) l') /\ In (n, sig) l.
(** No type declares a name twice *)
Definition names (l : list meth) : list string := map fst l.

Lemma declared_in n l s : declared n l = Some s -> In (n, s) l.
Proof. induction l as [|[m s'] l IH]; cbn [declared]; [discriminate|]. destruct (String.eqb n m) eqn:E; [|intros X; right; auto]. apply String.eqb_eq in E. intros X. injection X as ->. subst. left. reflexivity. Qed.
Lemma declared_none n l : declared n l = None -> forall s, ~ In (n, s) l.
Proof.
  induction l as [|[m s'] l IH]; cbn [declared]; [intros _ s []|]. destruct (String.eqb n m) eqn:E; [discriminate|]. intros X s [Y|Y]; [injection Y as -> ->; rewrite String.eqb_refl in E; discriminate|exact (IH X s Y)].
Qed.
Lemma in_declared n l s : NoDup (names l) -> In (n, s) l -> declared n l = Some s.
Proof.
  induction l as [|[m s'] l IH]; cbn [declared names map fst]; intros N; [intros []|]; intros [X|X]; inversion N; subst.
  - injection X as -> ->. rewrite String.eqb_refl. reflexivity.
  - destruct (String.eqb n m) eqn:E; [|apply IH; assumption]. apply String.eqb_eq in E. subst m. destruct H1. change n with (fst (n, s)). apply in_map. exact X.
Qed.
Lemma methodOf_has ll : (forall l, In l ll -> NoDup (names l)) -> forall n s, methodOf n ll = Some s <-> hasMethod ll n s.
Proof.
  induction ll as [|l ll IH]; intros N n s; cbn [methodOf].
  - split; [discriminate|]. intros (b & l & a & E & _). destruct b; discriminate.
  - assert (N' : forall l, In l ll -> NoDup (names l)) by (intros; apply N; right; assumption). destruct (declared n l) eqn:D.
    + split.
      * intros X. injection X as ->. exists [], l, ll. split; [reflexivity|]. split; [intros l' s' []|]. apply declared_in. exact D.
      * intros (b & l0 & a & E & F & I). destruct b as [|b0 b]; cbn [app] in E; injection E as <- E.
        -- rewrite (in_declared n l s) in D by (auto; apply N; left; reflexivity). congruence.
        -- destruct (F l s0); [left; reflexivity|apply declared_in; exact D].
    + rewrite (IH N' n s). split.
      * intros (b & l0 & a & E & F & I). exists (l :: b), l0, a. split; [cbn; rewrite E; reflexivity|]. split; [|exact I].
        intros l' s' [<-|X]; [apply declared_none; exact D|apply F; exact X].
      * intros (b & l0 & a & E & F & I). destruct b as [|b0 b]; cbn [app] in E; injection E as <- E; [destruct (declared_none _ _ D _ I)|].
        exists b, l0, a. split; [exact E|]. split; [|exact I]. intros l' s' X. apply F. right. exact X.
Qed.
Fixpoint nodupb (l : list string) : bool := match l with [] => true | x :: l => negb (existsb (String.eqb x) l) && nodupb l end.
Lemma nodupb_ok l : nodupb l = true -> NoDup l.
Proof.
  induction l as [|x l IH]; intros H; [constructor|]. cbn in H. apply andb_true_iff in H. destruct H as [A B]. constructor; [|auto]. intros I. apply negb_true_iff in A.
  assert (C : existsb (String.eqb x) l = true) by (apply existsb_exists; exists x; split; [exact I|apply String.eqb_refl]). congruence.
Qed.
Lemma levels_nodup t l : In l (levels t) -> NoDup (names l).
Proof.
  intros I. apply nodupb_ok. assert (F : forallb (fun l => nodupb (names l)) (levels t) = true) by (destruct t; vm_compute; reflexivity).
  rewrite forallb_forall in F. apply F. exact I.
Qed.
(** An assertion succeeds just when every method asked for is, at the least depth at which its name is declared, declared with the signature asked for *)
Theorem C114_assert t i : implements t i = true <-> forall n s, In (n, s) (asks i) -> hasMethod (levels t) n s.
Proof.
  unfold implements. rewrite forallb_forall. split.
  - intros H n s I. apply (methodOf_has (levels t) (levels_nodup t)). specialize (H _ I). cbn [fst snd] in H. destruct (methodOf n (levels t)); [|discriminate]. apply String.eqb_eq in H. congruence.
  - intros H [n s] I. cbn [fst snd]. rewrite (proj2 (methodOf_has (levels t) (levels_nodup t) n s) (H n s I)). apply String.eqb_refl.
Qed.
(** With unsafe operations: the assertions that succeed, by kind *)
Theorem C114_unsafe k n t : rightImpl false k n t ->
  implements t IType = true /\ implements t IPtr = true /\ implements t IInterface = true /\
  (implements t IStruct = true <-> k = 25) /\ (implements t IMap = true <-> k = 21) /\ (implements t ISlice = true <-> k = 23) /\
  (implements t IList = true <-> k = 17 \/ k = 23) /\ (implements t IArray = true <-> k = 17 \/ k = 23).
Proof.
  intros H. inversion H; subst; (split; [vm_compute; reflexivity|]; split; [vm_compute; reflexivity|]; split; [vm_compute; reflexivity|]);
  match goal with |- context [implements ?u IStruct] => 
    let a := eval vm_compute in (implements u IStruct) in let b := eval vm_compute in (implements u IMap) in let c := eval vm_compute in (implements u ISlice) in
    let d := eval vm_compute in (implements u IList) in let e := eval vm_compute in (implements u IArray) in
    change (implements u IStruct) with a; change (implements u IMap) with b; change (implements u ISlice) with c; change (implements u IList) with d; change (implements u IArray) with e end;
  repeat split; intros; try discriminate; try reflexivity; try (cbn in *; lia).
Qed.
(** With safe operations: no assertion to StructType succeeds, and those to MapType succeed for pointers, channels, functions and interfaces too *)
Theorem C114_safe k n t : rightImpl true k n t ->
  implements t IType = true /\ implements t IPtr = true /\ implements t IInterface = true /\
  implements t IStruct = false /\ (implements t IMap = true <-> 18 <= k <= 22) /\ (implements t ISlice = true <-> k = 17 \/ k = 23) /\
  (implements t IList = true <-> k = 17 \/ k = 23) /\ (implements t IArray = true <-> k = 17 \/ k = 23).
Proof.
  intros H. inversion H; subst; (split; [vm_compute; reflexivity|]; split; [vm_compute; reflexivity|]; split; [vm_compute; reflexivity|]; split; [vm_compute; reflexivity|]);
  match goal with |- context [implements ?u IMap] => 
    let b := eval vm_compute in (implements u IMap) in let c := eval vm_compute in (implements u ISlice) in
    let d := eval vm_compute in (implements u IList) in let e := eval vm_compute in (implements u IArray) in
    change (implements u IMap) with b; change (implements u ISlice) with c; change (implements u IList) with d; change (implements u IArray) with e end;
  repeat split; intros; try discriminate; try reflexivity; try (cbn in *; lia).
Qed.
(** The interface for its kind is what a Type made with unsafe operations has, whatever goroutines do *)
Theorem C114_usable kind numMethod evs s l g t o i : run kind numMethod false Froze evs = Some (s, l) -> In (g, t, RType o) l -> kindsOf i (kind t) -> assert (RType o) i = Some o.
Proof.
  intros E I K. destruct (C112_results kind numMethod false evs s l g t _ E I) as [[_ X]|(_ & o' & X & R)]; [discriminate|]. injection X as <-. destruct R as [_ R]. cbn [assert].
  apply C114_unsafe in R. destruct R as (A & B & C & D & F & G & H & J).
  assert (Y : implements (oImpl o) i = true) by (destruct i; cbn [kindsOf] in K; tauto). rewrite Y. reflexivity.
Qed.
(** The assertions of jsonfmt's encoderOf succeed: the interface, then the implementation *)
Theorem C114_encoder kind numMethod evs s l g t o : run kind numMethod false Froze evs = Some (s, l) -> In (g, t, RType o) l ->
  (kind t = 22 -> assert (RType o) IPtr = Some o) /\ (kind t = 23 -> assert (RType o) ISlice = Some o /\ oImpl o = USlice) /\
  (kind t = 17 -> assert (RType o) IArray = Some o /\ oImpl o = UArray) /\ (kind t = 25 -> assert (RType o) IStruct = Some o /\ oImpl o = UStruct) /\
  (kind t = 21 -> assert (RType o) IMap = Some o /\ oImpl o = UMap).
Proof.
  intros E I. pose proof (fun i => C114_usable kind numMethod evs s l g t o i E I) as U.
  destruct (C112_results kind numMethod false evs s l g t _ E I) as [[_ X]|(_ & o' & X & R)]; [discriminate|]. injection X as <-. destruct R as [_ R].
  split; [intros K; apply U; exact K|].
  repeat (split; [intros K; split; [apply U; cbn; auto|]; rewrite K in R; inversion R; subst; try reflexivity; try (cbn in *; lia)|]).
  intros K; split; [apply U; cbn; auto|]; rewrite K in R; inversion R; subst; try reflexivity; cbn in *; lia.
Qed.
(** TypeOfPtr panics for nil only *)
Theorem C114_ptr kind numMethod evs s l t : run kind numMethod false Froze evs = Some (s, l) -> (TypeOfPtr kind numMethod s t = None <-> t = 0).
Proof.
  intros E. destruct (inv_run kind numMethod false evs _ _ _ _ (inv_Froze kind numMethod false) E) as (I1 & _). unfold TypeOfPtr, TypeOf, Type2.
  destruct (load t (cache s)) eqn:L.
  - destruct (I1 _ _ (load_in _ _ _ L)) as (N & _ & R). cbn [snd assert]. apply C114_unsafe in R. destruct R as (_ & B & _). rewrite B. split; [discriminate|contradiction].
  - destruct (Z.eqb_spec t 0) as [->|N]; cbn [snd assert oImpl].
    + tauto.
    + assert (B : implements (implOf kind numMethod false t) IPtr = true) by (eapply proj1, proj2, C114_unsafe, implOf_right). rewrite B. split; [discriminate|contradiction].
Qed.

(** ** That the assertions tell the kinds apart *)
Definition C114_full : Prop := forall safe k n t i, rightImpl safe k n t -> (implements t i = true <-> kindsOf i k).
(** An int is a PtrType and an InterfaceType, a slice is an ArrayType *)
Theorem C114_kinds_refuted : (exists t, rightImpl false 2 0 t /\ implements t IPtr = true /\ implements t IInterface = true) /\ (exists t, rightImpl false 23 0 t /\ implements t IArray = true).
Proof. split; [exists UType; split; [constructor; cbn; lia|split; vm_compute; reflexivity]|exists USlice; split; [constructor|vm_compute; reflexivity]]. Qed.
(** A struct of ConfigSafe is no StructType, and a pointer is a MapType *)
Theorem C114_safe_refuted : (exists t, rightImpl true 25 0 t /\ implements t IStruct = false) /\ (exists t, rightImpl true 22 0 t /\ implements t IMap = true).
Proof. split; [exists SafeStruct; split; [constructor|vm_compute; reflexivity]|exists SafeMap; split; [constructor; cbn; auto 8|vm_compute; reflexivity]]. Qed.
Theorem C114_full_refuted : ~ C114_full.
Proof. intros F. destruct C114_kinds_refuted as [(t & R & P & _) _]. apply (F false 2 0 t IPtr R) in P. cbn in P. discriminate. Qed.
(** With what is missing: the assertions to StructType, MapType and SliceType with unsafe operations do tell *)
Theorem C114_kinds_partial k n t i : In i [IStruct; IMap; ISlice; IList] -> rightImpl false k n t -> (implements t i = true <-> kindsOf i k).
Proof. intros I R. apply C114_unsafe in R. destruct R as (_ & _ & _ & A & B & C & D & _). cbn [In] in I. destruct I as [<-|[<-|[<-|[<-|[]]]]]; cbn [kindsOf]; assumption. Qed.

Example C114_example :
  hasMethod (levels UStruct) "FieldByName" "(string) StructField" /\ ~ hasMethod (levels SafeStruct) "Field" "(int) StructField" /\
  rightImpl false 25 3 UStruct /\ rightImpl true 21 0 SafeMap /\ In IMap [IStruct; IMap; ISlice; IList] /\
  (exists s o, run (fun t => t) (fun _ => 0) false Froze [ETypeOf 1 25; EStep 1; EStep 1] = Some (s, [(1, 25, RType o)]) /\ assert (RType o) IStruct = Some o /\ assert (RType o) IMap = None /\
    TypeOfPtr (fun t => t) (fun _ => 0) s 2 <> None).
Proof.
  split; [apply methodOf_has; [apply levels_nodup|vm_compute; reflexivity]|]. split; [intros H; apply methodOf_has in H; [vm_compute in H; discriminate|apply levels_nodup]|].
  split; [constructor|]. split; [constructor; cbn; auto 8|]. split; [cbn; auto|]. eexists. eexists. split; [vm_compute; reflexivity|]. split; [vm_compute; reflexivity|]. split; [vm_compute; reflexivity|vm_compute; discriminate].
Qed.

Print Assumptions C114_assert.
Print Assumptions C114_unsafe.
Print Assumptions C114_safe.
Print Assumptions C114_usable.
Print Assumptions C114_encoder.
Print Assumptions C114_ptr.
Print Assumptions C114_kinds_refuted.
Print Assumptions C114_safe_refuted.
Print Assumptions C114_full_refuted.
Print Assumptions C114_kinds_partial.
