(** C108: the texts of go-spew's formatter (%v, %+v, %#v, %#+v).  C109: the formatter comes to an end.
    Everything outside go-spew (strconv, sort.Sort, the methods of values, ==) is a variable. *)
From Verif Require Import Base SpewModel SpewSpec SpewProofs SpewProofs2 SpewFormatSpec SpewFormatProofs SpewFormatProofs2 SpewProps.
Open Scope Z_scope.
Open Scope list_scope.
From Coq Require Import Permutation Lia.

(** ** C108: the text *)
Section C108.
  Variable decimal : Z -> bytes.
  Variable quote : bytes -> bytes.
  Variable method : sval -> option mcall.
  Variable valueEq : sval -> sval -> bool.
  Variable spewKey : sval -> bytes.
  Variable sortBy : (entry -> entry -> bool) -> list entry -> list entry.
  Variable cs : config.
  Variable h : heap.
  Variable sharp plus : bool.
  (** Whenever it ends without a panic, the text is that of a tree the value unfolds to; with # no pointers are elements, keys or values, and all values of maps are found *)
  Theorem C108_text_partial fuel v t : (forall less l, Permutation (sortBy less l) l) -> (sharp = true -> noPointersListed h v) ->
    formatV decimal quote method valueEq spewKey sortBy cs h sharp plus fuel (Some v) = Some (Some t) ->
    exists tr hist, funfold decimal method cs h sharp 0 true [] v tr hist /\ t = frender sharp plus true tr.
  Proof.
    intros P A E. unfold formatV in E. destruct (format decimal quote method valueEq spewKey sortBy cs h sharp plus fuel false v _) as [st| |] eqn:F; try discriminate. injection E as <-.
    destruct (format_wrote decimal quote method valueEq spewKey sortBy cs h sharp plus P fuel false v _ _ [] F) as (tr & hist & U & O & _); [|exact A|].
    - intros a k. split; [intros []|]. intros (l1 & l2 & X & _). destruct l1; discriminate.
    - exists tr, hist. split; [exact U|exact O].
  Qed.
  Theorem C108_nothing fuel : formatV decimal quote method valueEq spewKey sortBy cs h sharp plus fuel None = Some (Some (if sharp then bs "(interface {})<nil>" else bs "<nil>")).
  Proof. unfold formatV. destruct sharp; reflexivity. Qed.
End C108.
Definition C108_full : Prop := forall decimal quote method valueEq spewKey sortBy cs h sharp plus fuel v t, (forall less l, Permutation (sortBy less l) l) ->
  formatV decimal quote method valueEq spewKey sortBy cs h sharp plus fuel (Some v) = Some (Some t) ->
  exists tr hist, funfold decimal method cs h sharp 0 true [] v tr hist /\ t = frender sharp plus true tr.
(** struct{A [1]*int; B int}{B: 2}: after a nil pointer in an array the type of the next field is missing; without A it is there *)
Definition leak (n : list sval) : sval := SStruct (bs "main.T") [(bs "A", true, SArr (bs "[1]*int") n); (bs "B", true, int 2)].
Theorem C108_type_refuted :
  formatV dec quoted noMethod never noKey isort plainCfg emptyHeap true false 9 (Some (leak [SPtr (bs "*int") None])) = Some (Some (bs "(main.T){A:([1]*int)[<nil>] B:2}")) /\
  formatV dec quoted noMethod never noKey isort plainCfg emptyHeap true false 9 (Some (leak [])) = Some (Some (bs "(main.T){A:([1]*int)[] B:(int)2}")).
Proof. split; vm_compute; reflexivity. Qed.
Lemma fint_text d show hist n tr hist' : funfold dec noMethod plainCfg emptyHeap true d show hist (int n) tr hist' -> tr = FLeaf (bs "int") (dec n).
Proof.
  intros U. inversion U as [| | | | |d0 sh hi v m P SA|d0 sh hi v m text P SA LT|d0 sh hi v m k l SA PA TD|d0 sh hi v m k l ts hist1 SA PA TD UP]; subst.
  - inversion SA; subst; discriminate.
  - inversion SA; subst; try discriminate. inversion LT; subst. reflexivity.
  - inversion PA.
  - inversion PA.
Qed.
Theorem C108_full_refuted : ~ C108_full.
Proof.
  intros F. destruct (F dec quoted noMethod never noKey isort plainCfg emptyHeap true false 9%nat _ _ isort_perm (proj1 C108_type_refuted)) as (tr & hist & U & E).
  inversion U as [| | | | |d hist0 sh v m P SA|d hist0 sh v m text P SA LT|d hist0 sh v m k l SA PA TD|d hist0 sh v m k l ts hist' SA PA TD UP]; subst; try discriminate.
  - inversion SA; subst; discriminate.
  - inversion LT.
  - assert (m = []) by (inversion SA; subst; first [reflexivity|discriminate]). subst m.
    inversion PA as [| | |ty fs|]; subst. cbn [map fst snd] in UP. inversion UP as [|d0 k0 hi p v l lab t ts0 h1 h2 h3 UL UA UR|]; subst. inversion UL; subst.
    inversion UR as [|d0 k0 hi p v l lab t' ts1 h3 h4 h5 UL2 UB UR2|]; subst. inversion UL2; subst. inversion UR2; subst. cbn [showOf outOf int] in *. apply fint_text in UB. subst t'.
    cbn [frender map fst snd showOf joinSpace] in E. apply (f_equal (fun l => nth 3 (rev l) 0)) in E. revert E. cbn [ftype andb orb]. change (closing KStruct) with (bs "}").
    rewrite ?rev_app_distr. vm_compute. discriminate.
Qed.
(** The heap of the examples: two cells, a slice and a map *)
Definition fmtHeap : heap :=
  {| cell := fun c => if c =? 0 then int 5 else SPtr (bs "*int") (Some (4096, 0)); elems := fun _ => [SIface (bs "interface {}") (Some (int 1)); SIface (bs "interface {}") None];
     entries := fun _ => [(SBasic (bs "string") (BStr (bs "k")), Some (SPtr (bs "*int") None))] |}.
Definition fmtValue : sval := SStruct (bs "main.T") [(bs "P", true, SPtr (bs "**int") (Some (8192, 1))); (bs "S", false, SSlice (bs "[]interface {}") 2 (Some 0)); (bs "B", true, SHex (bs "[]uint8") 4 [7; 8])].
Definition fmtMap : sval := SMap (bs "map[string]*int") (Some 0).
Definition fmtText (sharp plus : bool) (v : sval) : option (option bytes) := formatV dec quoted noMethod never noKey isort plainCfg fmtHeap sharp plus 9 (Some v).
Lemma fmt_reach w : reach fmtHeap fmtValue w -> w = fmtValue \/ (exists ty p, w = SPtr ty p) \/ (exists ty k, w = SBasic ty k) \/ w = SSlice (bs "[]interface {}") 2 (Some 0) \/ (exists ty c b, w = SHex ty c b) \/ (exists ty, w = SIface ty None).
Proof.
  induction 1 as [|w x _ IH I|w x _ IH P]; [auto| |].
  - destruct IH as [->|[(ty & p & ->)|[(ty & k & ->)|[->|[(ty & c & b & ->)|(ty & ->)]]]]]; inversion I as [|ty0 c0 r v J| | |ty0 fs n e v J]; subst.
    + destruct J as [J|[J|[J|[]]]]; injection J as <- <- <-; cbn [outOf]; eauto 9.
    + destruct J as [J|[J|[]]]; subst v; cbn [outOf]; unfold int; eauto 9.
  - destruct IH as [->|[(ty & p & ->)|[(ty & k & ->)|[->|[(ty & c & b & ->)|(ty & ->)]]]]]; inversion P as [ty0 a c0]; subst. cbn [fmtHeap cell]. unfold int. destruct (c0 =? 0); cbn [outOf]; eauto 9.
Qed.
Lemma fmt_noPointers : noPointersListed fmtHeap fmtValue.
Proof.
  intros w R. destruct (fmt_reach w R) as [->|[(ty & p & ->)|[(ty & k & ->)|[->|[(ty & c & b & ->)|(ty & ->)]]]]]; (split; [|intros ty1 r1 k1 X; discriminate X]); cbn [listed fmtValue]; try (intros x []; fail).
  intros x [<-|[<-|[]]]; reflexivity.
Qed.
Definition fmtSharp : bytes := bs "(main.T){P:(**int)5 S:([]interface {})[(int)1 (interface {})<nil>] B:([]uint8)[7 8]}".
Lemma fmt_sharp : formatV dec quoted noMethod never noKey isort plainCfg fmtHeap true false 9 (Some fmtValue) = Some (Some fmtSharp).
Proof. vm_compute. reflexivity. Qed.
Example C108_example :
  fmtText false false fmtValue = Some (Some (bs "{<**>5 [1 <nil>] [7 8]}")) /\
  fmtText false true fmtValue = Some (Some (bs "{P:<**>(0x2000->0x1000)5 S:[1 <nil>] B:[7 8]}")) /\
  fmtText true false fmtValue = Some (Some fmtSharp) /\
  fmtText true true fmtValue = Some (Some (bs "(main.T){P:(**int)(0x2000->0x1000)5 S:([]interface {})[(int)1 (interface {})<nil>] B:([]uint8)[7 8]}")) /\
  fmtText false false fmtMap = Some (Some (bs "map[k:<nil>]")) /\ fmtText true false fmtMap = Some (Some (bs "(map[string]*int)map[k:<nil>]")) /\
  noPointersListed fmtHeap fmtValue /\
  exists tr hist, funfold dec noMethod plainCfg fmtHeap true 0 true [] fmtValue tr hist /\
    fmtSharp = frender true false true tr.
Proof.
  split; [vm_compute; reflexivity|]. split; [vm_compute; reflexivity|]. split; [exact fmt_sharp|]. split; [vm_compute; reflexivity|]. split; [vm_compute; reflexivity|]. split; [vm_compute; reflexivity|]. split; [exact fmt_noPointers|].
  destruct (C108_text_partial dec quoted noMethod never noKey isort plainCfg fmtHeap true false 9 fmtValue _ isort_perm (fun _ => fmt_noPointers) fmt_sharp) as (tr & hist & U & X). exists tr, hist. split; [exact U|exact X].
Qed.

(** ** C109: the formatter comes to an end *)
Section C109.
  Variable decimal : Z -> bytes.
  Variable quote : bytes -> bytes.
  Variable method : sval -> option mcall.
  Variable valueEq : sval -> sval -> bool.
  Variable spewKey : sval -> bytes.
  Variable sortBy : (entry -> entry -> bool) -> list entry -> list entry.
  Variable cs : config.
  Variable h : heap.
  Variable sharp plus : bool.
  (** Every way back goes through a pointer, and pointers do not go round among themselves *)
  Theorem C109_ends_partial v addrs : (forall less l, Permutation (sortBy less l) l) -> chains_end h v -> nesting_ends h v -> addresses_in h v addrs ->
    exists fuel, formatV decimal quote method valueEq spewKey sortBy cs h sharp plus fuel (Some v) <> None.
  Proof.
    intros P A B C. destruct (format_ends decimal quote method valueEq spewKey sortBy cs h sharp plus P v addrs A B C false {| fOut := []; fDepth := 0; fPtrs := []; fIgnT := false |}) as (f & N).
    exists f. unfold formatV. destruct (format _ _ _ _ _ _ _ _ _ _ _ _ _ _); congruence.
  Qed.
  (** With a limit for the depth, pointers that do not go round are enough *)
  Theorem C109_limit_partial v : (forall less l, Permutation (sortBy less l) l) -> MaxDepth cs <> O -> chains_end h v ->
    exists fuel, formatV decimal quote method valueEq spewKey sortBy cs h sharp plus fuel (Some v) <> None.
  Proof.
    intros P M A. destruct (format_ends_max decimal quote method valueEq spewKey sortBy cs h sharp plus P v M A false {| fOut := []; fDepth := 0; fPtrs := []; fIgnT := false |}) as (f & N).
    exists f. unfold formatV. destruct (format _ _ _ _ _ _ _ _ _ _ _ _ _ _); congruence.
  Qed.
  (** Once it ended, the result is the same with more steps *)
  Theorem C109_result fuel fuel' v : (fuel <= fuel')%nat -> formatV decimal quote method valueEq spewKey sortBy cs h sharp plus fuel v <> None ->
    formatV decimal quote method valueEq spewKey sortBy cs h sharp plus fuel' v = formatV decimal quote method valueEq spewKey sortBy cs h sharp plus fuel v.
  Proof.
    destruct v as [v|]; [|reflexivity]. intros L N. unfold formatV in *. rewrite (format_le decimal quote method valueEq spewKey sortBy cs h sharp plus fuel fuel' false L); [reflexivity|].
    intros X. rewrite X in N. congruence.
  Qed.
  (** A pointer that points to itself is followed for ever, at any limit *)
  Theorem C109_pointer_refuted ty a c : unpackValue (cell h c) = SPtr ty (Some (a, c)) -> forall fuel,
    formatV decimal quote method valueEq spewKey sortBy cs h sharp plus fuel (Some (SPtr ty (Some (a, c)))) = None.
  Proof.
    intros E [|fuel]; [reflexivity|]. unfold formatV. rewrite format_step. unfold fstep, formatPtr. cbn [fDepth fPtrs forget filter]. cbv zeta.
    assert (G : forall f m i l, (forall b k, In (b, k) m -> k = O) -> chase h f 0 m (SPtr ty (Some (a, c))) i l = None).
    { induction f as [|f IH]; intros m i l B; [reflexivity|]. cbn [chase].
      assert (A : above 0 a m = false) by (apply not_true_is_false; intros A; apply above_spec in A; destruct A as (k & L & _); lia). rewrite A.
      assert (B' : forall b k, In (b, k) (put 0 a m) -> k = O) by (intros b k I; apply In_put in I; destruct I as [[_ ->]|[_ I]]; [reflexivity|eauto]).
      destruct (cell h c) as [| |ty' [w|]| | | | |]; cbn [unpackValue] in E; try discriminate E; rewrite E; apply IH; exact B'. }
    rewrite (G fuel [] O [] ltac:(intros b k [])). reflexivity.
  Qed.
  (** Without a limit, so is a slice that contains itself *)
  Theorem C109_slice_refuted ty cp r ty' l : MaxDepth cs = O -> method (SSlice ty cp (Some r)) = None -> elems h r = SIface ty' (Some (SSlice ty cp (Some r))) :: l -> forall fuel,
    formatV decimal quote method valueEq spewKey sortBy cs h sharp plus fuel (Some (SSlice ty cp (Some r))) = None.
  Proof.
    intros M Me El fuel. assert (G : forall n st, format decimal quote method valueEq spewKey sortBy cs h sharp plus n false (SSlice ty cp (Some r)) st = FHang).
    { induction n as [|f IH]; intros st; [reflexivity|]. rewrite format_step. unfold fstep, handleMethods. rewrite Me.
      replace (snd (if negb (DisableMethods cs) then _ else _)) with false by (destruct (DisableMethods cs); reflexivity). unfold brackets. rewrite M. cbn [Nat.eqb negb andb].
      rewrite El. cbn [fSliceLoop fUnpack]. rewrite IH. reflexivity. }
    unfold formatV. rewrite G. reflexivity.
  Qed.
End C109.
Definition C109_full : Prop := forall decimal quote method valueEq spewKey sortBy cs h sharp plus v, sorts sortBy -> exists fuel, formatV decimal quote method valueEq spewKey sortBy cs h sharp plus fuel (Some v) <> None.
Theorem C109_full_refuted : ~ C109_full.
Proof.
  intros F. destruct (F dec quoted noMethod never noKey isort plainCfg loopHeap false false (SPtr (bs "main.P") (Some (4096, 0))) isort_sorts) as (fuel & N). apply N. apply C109_pointer_refuted. reflexivity.
Qed.
(** A list whose node points back to itself, in all four forms; a slice that contains itself, with and without a limit *)
Example C109_example :
  chains_end ringHeap ring /\ nesting_ends ringHeap ring /\ addresses_in ringHeap ring [4096] /\
  map (fun f => formatV dec quoted noMethod never noKey isort plainCfg ringHeap (fst f) (snd f) 9 (Some ring)) [(false, false); (false, true); (true, false); (true, true)] =
    map (fun t => Some (Some t)) [bs "<*>{<*><shown>}"; bs "<*>(0x1000){next:<*>(0x1000)<shown>}"; bs "(*main.N){next:(*main.N)<shown>}"; bs "(*main.N)(0x1000){next:(*main.N)(0x1000)<shown>}"] /\
  (forall fuel, formatV dec quoted noMethod never noKey isort plainCfg loopHeap false false fuel (Some (SSlice (bs "[]interface {}") 1 (Some 0))) = None) /\
  formatV dec quoted noMethod never noKey isort
    {| Indent := bs " "; MaxDepth := 2; DisableMethods := false; DisablePointerAddresses := true; DisableCapacities := true; ContinueOnMethod := false; SortKeys := true; SpewKeys := false |}
    loopHeap false false 9 (Some (SSlice (bs "[]interface {}") 1 (Some 0))) = Some (Some (bs "[[[<max>]]]")).
Proof.
  destruct C103_example as (_ & _ & A & B & C & _). split; [exact A|]. split; [exact B|]. split; [exact C|]. split; [vm_compute; reflexivity|].
  split; [|vm_compute; reflexivity]. intros fuel. eapply C109_slice_refuted; reflexivity.
Qed.

Print Assumptions C108_text_partial.
Print Assumptions C108_nothing.
Print Assumptions C108_type_refuted.
Print Assumptions C108_full_refuted.
Print Assumptions C109_ends_partial.
Print Assumptions C109_limit_partial.
Print Assumptions C109_result.
Print Assumptions C109_pointer_refuted.
Print Assumptions C109_slice_refuted.
Print Assumptions C109_full_refuted.
