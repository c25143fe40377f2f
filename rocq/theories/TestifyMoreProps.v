(** Theorems about Nil, types, regular expressions, JSON, FailNow, files, HTTP handlers, CallerInfo and the functions of assertion_format.go. *)
From Verif Require Import Base TestifyModel TestifySpec TestifyProofs TestifyProps TestifyMoreModel TestifyMoreSpec TestifyMoreProofs.
From Coq Require Import Lia.
Open Scope Z_scope.
Open Scope list_scope.

(** ** C96: Nil, NotNil, IsType, Implements *)
Theorem C96_nil_partial : forall sprintf o msgs, goodMessages msgs -> wellKinded o -> ~ isUnsafePointer o ->
  decides (Nil sprintf o msgs) (nilValue o) /\ decides (NotNil sprintf o msgs) (~ nilValue o).
Proof.
  intros sprintf o msgs G W U. pose proof (isNil_spec o W U) as H. unfold Nil, NotNil. rewrite Fail_good by auto. unfold decides. rewrite <- H.
  destruct (isNil o); cbn; intuition congruence.
Qed.
(** The nil of unsafe.Pointer is not found to be nil. *)
Theorem C96_unsafe : forall sprintf ty id msgs, goodMessages msgs ->
  Nil sprintf (Some (VOther ty 26 id)) msgs = Ret 1 false /\ NotNil sprintf (Some (VOther ty 26 id)) msgs = Ret 0 true.
Proof. intros sprintf ty id msgs G. unfold Nil, NotNil, isNil. cbn. now rewrite Fail_good. Qed.
Definition C96_full : Prop := forall sprintf o msgs, goodMessages msgs -> wellKinded o -> decides (Nil sprintf o msgs) (nilValue o).
Theorem C96_full_refuted : ~ C96_full.
Proof.
  intros H. destruct (H exampleSprintf (Some (VOther 26 26 0)) [] gm_none) as [(_ & E)|(N & _)].
  - constructor. cbn. auto 7.
  - discriminate.
  - apply N. constructor.
Qed.
Theorem C96_istype : forall sprintf expected object msgs, goodMessages msgs -> decides (IsType sprintf expected object msgs) (ofSameType expected object).
Proof.
  intros sprintf e o msgs G. unfold IsType. rewrite Fail_good by auto. apply (decides_bool (sameType o e)); [apply sameType_spec|]. now destruct (sameType o e).
Qed.
Theorem C96_implements : forall sprintf elemOf isInterface implements i it o msgs, goodMessages msgs -> elemOf (typeOf i) = Some it -> isInterface it = true ->
  decides (Implements sprintf elemOf isInterface implements (Some i) o msgs) (exists v, o = Some v /\ implements (typeOf v) it = true).
Proof.
  intros sprintf elemOf isInterface implements i it o msgs G E I. unfold Implements. rewrite E, Fail_good by auto.
  destruct o as [v|]; [|right; split; auto; intros (w & F & _); discriminate]. rewrite I. cbn.
  destruct (implements (typeOf v) it) eqn:M; [left|right]; split; eauto. intros (w & F & H). injection F as <-. congruence.
Qed.
Theorem C96_implements_panics : forall sprintf elemOf isInterface implements i o msgs, goodMessages msgs ->
  (Implements sprintf elemOf isInterface implements i o msgs = Pan 0 <->
   i = None \/ exists v, i = Some v /\ (elemOf (typeOf v) = None \/ exists it, elemOf (typeOf v) = Some it /\ isInterface it = false /\ o <> None)).
Proof.
  intros sprintf elemOf isInterface implements i o msgs G. unfold Implements. rewrite Fail_good by auto.
  destruct i as [v|]; [|split; auto]. destruct (elemOf (typeOf v)) as [it|] eqn:E.
  - destruct o as [w|].
    + destruct (isInterface it) eqn:I; cbn.
      * split; [destruct (implements _ _); discriminate|]. intros [H|(x & F & [H|(y & H & J & _)])]; try discriminate; injection F as <-; congruence.
      * split; auto. intros _. right. exists v. split; auto. right. exists it. repeat split; auto. discriminate.
    + split; [discriminate|]. intros [H|(x & F & [H|(y & _ & _ & J)])]; try discriminate; [injection F as <-; congruence|contradiction].
  - split; auto. intros _. right. eauto.
Qed.
Example C96_example :
  Nil exampleSprintf (Some (VMap 60 None)) [] = Ret 0 true /\ Nil exampleSprintf (Some (VOther 61 19 0)) [] = Ret 0 true /\
  Nil exampleSprintf (Some (VOther 61 19 7)) [Some (VStr 24 (bs "set"))] = Ret 1 false /\ NotNil exampleSprintf (Some (VInt 2 2 0)) [] = Ret 0 true /\
  IsType exampleSprintf (Some (VInt 2 2 0)) (Some (VInt 2 2 9)) [] = Ret 0 true /\ IsType exampleSprintf None (Some (VInt 2 2 9)) [] = Ret 1 false /\
  (let elem t := if t =? 70 then Some 71 else if t =? 72 then Some 2 else None in
   Implements exampleSprintf elem (Z.eqb 71) (fun t _ => t =? 80) (Some (VPtr 70 None)) (Some (VOther 80 25 1)) [] = Ret 0 true /\
   Implements exampleSprintf elem (Z.eqb 71) (fun t _ => t =? 80) (Some (VPtr 70 None)) None [] = Ret 1 false /\
   Implements exampleSprintf elem (Z.eqb 71) (fun t _ => t =? 80) (Some (VPtr 72 None)) (Some (VOther 80 25 1)) [] = Pan 0).
Proof. repeat split. Qed.

(** ** C97: Regexp, NotRegexp, JSONEq *)
Section C97.
  Variables (sprintf : bytes -> list iface -> bytes) (regex : Type) (asRegexp : iface -> option (option regex)) (sprint : iface -> bytes)
    (compile : bytes -> option regex) (finds : regex -> bytes -> bool).
  (** The expression a value stands for: a *Regexp, or the text fmt.Sprint gives for it *)
  Inductive pattern97 : iface -> regex -> Prop :=
  | pat_re : forall rx r, asRegexp rx = Some (Some r) -> pattern97 rx r
  | pat_text : forall rx r, asRegexp rx = None -> compile (sprint rx) = Some r -> pattern97 rx r.
  Theorem C97_regexp : forall rx r str msgs, goodMessages msgs -> pattern97 rx r ->
    decides (Regexp sprintf regex asRegexp sprint compile finds rx str msgs) (finds r (sprint str) = true) /\
    decides (NotRegexp sprintf regex asRegexp sprint compile finds rx str msgs) (finds r (sprint str) = false).
  Proof.
    intros rx r str msgs G P. unfold Regexp, NotRegexp, matchRegexp. rewrite Fail_good by auto. unfold decides.
    destruct P as [rx r ->|rx r -> ->]; destruct (finds r (sprint str)); cbn; intuition congruence.
  Qed.
  Theorem C97_bad : forall rx str msgs, goodMessages msgs -> let R := Regexp sprintf regex asRegexp sprint compile finds rx str msgs in
    let N := NotRegexp sprintf regex asRegexp sprint compile finds rx str msgs in
    (R = Pan 0 <-> ~ exists r, pattern97 rx r) /\ (N = Pan 0 <-> ~ exists r, pattern97 rx r).
  Proof.
    intros rx str msgs G R N. subst R N. assert (D : (exists r, pattern97 rx r) \/ ~ exists r, pattern97 rx r).
    { destruct (asRegexp rx) as [[r|]|] eqn:A; [left; exists r; now constructor| |destruct (compile (sprint rx)) as [r|] eqn:C; [left; exists r; now constructor 2|]];
      right; intros (r & P); inversion P; congruence. }
    destruct D as [(r & P)|D].
    - destruct (C97_regexp rx r str msgs G P) as [[[_ ->]|[_ ->]] [[_ ->]|[_ ->]]]; split; split; try discriminate; intros H; exfalso; apply H; eauto.
    - unfold Regexp, NotRegexp, matchRegexp. destruct (asRegexp rx) as [[r|]|] eqn:A.
      + exfalso. apply D. exists r. now constructor.
      + cbn. tauto.
      + destruct (compile (sprint rx)) as [r|] eqn:C; [exfalso; apply D; exists r; now constructor 2|]. cbn. tauto.
  Qed.
  Theorem C97_json : forall unmarshal deq e a msgs, goodMessages msgs -> deqBytes deq -> (forall s x, unmarshal s = Some x -> ~ isFunc x) ->
    decides (JSONEq sprintf unmarshal deq e a msgs) (exists x y, unmarshal e = Some x /\ unmarshal a = Some y /\ deepEqual deq x y).
  Proof.
    intros unmarshal deq e a msgs G D F. unfold JSONEq. rewrite Fail_good by auto.
    destruct (unmarshal e) as [x|] eqn:E; [|right; split; auto; intros (u & v & H & _); discriminate].
    destruct (unmarshal a) as [y|] eqn:A; [|right; split; auto; intros (u & v & _ & H & _); discriminate].
    destruct (C86_equal sprintf deq x y msgs D G) as [[(_ & _ & H) R]|[N R]].
    - left. split; auto. eauto 6.
    - right. split; auto. intros (u & v & E1 & E2 & H). injection E1 as <-. injection E2 as <-. apply N. split; eauto.
  Qed.
End C97.
(** Looking for a text in a slice of bytes looks in the list of its numbers instead *)
Definition C97_full : Prop := forall sprintf regex asRegexp sprint compile finds rx r b msgs,
  goodMessages msgs -> pattern97 regex asRegexp sprint compile rx r ->
  decides (Regexp sprintf regex asRegexp sprint compile finds rx (Some (VBytes (Some b))) msgs) (finds r b = true).
Theorem C97_bytes_refuted : let re := Regexp exampleSprintf bytes (fun _ => None) exampleSprint exampleCompile exampleFinds in
  exampleFinds (bs "ab") (bs "cab") = true /\ re (Some (VStr 24 (bs "ab"))) (Some (VBytes (Some (bs "cab")))) [] = Ret 1 false /\
  exampleFinds (bs "98") (bs "cab") = false /\ re (Some (VStr 24 (bs "98"))) (Some (VBytes (Some (bs "cab")))) [] = Ret 0 true.
Proof. repeat split. Qed.
Theorem C97_full_refuted : ~ C97_full.
Proof.
  intros H. destruct (H exampleSprintf bytes (fun _ => None) exampleSprint exampleCompile exampleFinds (Some (VStr 24 (bs "ab"))) (bs "ab") (bs "cab") [] gm_none) as [(_ & E)|(N & _)].
  - constructor 2; reflexivity.
  - discriminate.
  - apply N. reflexivity.
Qed.
Example C97_example : let re := Regexp exampleSprintf bytes (fun _ => None) exampleSprint exampleCompile exampleFinds in
  let nre := NotRegexp exampleSprintf bytes (fun _ => None) exampleSprint exampleCompile exampleFinds in
  re (Some (VStr 24 (bs "tart"))) (Some (VStr 24 (bs "it's starting"))) [] = Ret 0 true /\
  nre (Some (VStr 24 (bs "tart"))) (Some (VStr 24 (bs "it's starting"))) [] = Ret 1 false /\
  re (Some (VStr 24 (bs "(tart"))) (Some (VStr 24 (bs "it's starting"))) [] = Pan 0 /\
  (let u s := match s with [49] | [32; 49] => Some (Some (VStr 24 (bs "one"))) | [50] => Some None | _ => None end in
   JSONEq exampleSprintf u exampleDeq [49] [32; 49] [] = Ret 0 true /\ JSONEq exampleSprintf u exampleDeq [49] [50] [] = Ret 1 false /\
   JSONEq exampleSprintf u exampleDeq [51] [51] [] = Ret 1 false).
Proof. repeat split. Qed.

(** ** C98: FailNow and the formatted variants *)
Theorem C98_failnow : forall sprintf msgs, goodMessages msgs ->
  FailNow sprintf (Some FExits) msgs = Exit 1 /\ FailNow sprintf None msgs = Pan 1 /\ FailNow sprintf (Some FReturns) msgs = Ret 1 false /\
  (forall v, FailNow sprintf (Some (FPanics v)) msgs = Pan 1).
Proof. intros sprintf msgs G. unfold FailNow. rewrite Fail_good by auto. repeat split. Qed.
Theorem C98_never_passes : forall sprintf failNow msgs n, FailNow sprintf failNow msgs <> Ret n true.
Proof. intros sprintf failNow msgs n. unfold FailNow, Fail. destruct (messageFromMsgAndArgs sprintf msgs); [|discriminate]. destruct failNow as [[]|]; discriminate. Qed.
(** Whatever the message and its arguments, the formatted variant does what the assertion does without a message *)
Section Format.
  Variables (sprintf : bytes -> list iface -> bytes) (deq : gval -> gval -> bool) (convertible : Z -> Z -> bool) (convert : gval -> Z -> gval)
    (zero : Z -> gval) (memory : Z -> iface) (typeName : Z -> bytes) (keyEq : iface -> iface -> bool) (keyAssignable : Z -> Z -> bool)
    (ifaceEq : iface -> iface -> option bool) (elemOf : Z -> option Z) (isInterface : Z -> bool) (implements : Z -> Z -> bool)
    (regex : Type) (asRegexp : iface -> option (option regex)) (sprint : iface -> bytes) (compile : bytes -> option regex) (finds : regex -> bytes -> bool)
    (unmarshal : bytes -> option iface) (newRequest : bytes -> bytes -> bool) (msg : bytes) (args : list iface).
  Theorem C98_format_values : forall e a : iface, forall fuel n,
    Containsf sprintf deq typeName e a msg args = Contains sprintf deq typeName e a [] /\
    NotContainsf sprintf deq typeName e a msg args = NotContains sprintf deq typeName e a [] /\
    ElementsMatchf sprintf deq zero memory fuel e a msg args = ElementsMatch sprintf deq zero memory fuel e a [] /\
    Emptyf sprintf deq zero memory fuel e msg args = Empty sprintf deq zero memory fuel e [] /\
    NotEmptyf sprintf deq zero memory fuel e msg args = NotEmpty sprintf deq zero memory fuel e [] /\
    Equalf sprintf deq e a msg args = Equal sprintf deq e a [] /\ NotEqualf sprintf deq e a msg args = NotEqual sprintf deq e a [] /\
    EqualValuesf sprintf deq convertible convert e a msg args = EqualValues sprintf deq convertible convert e a [] /\
    Exactlyf sprintf deq e a msg args = Exactly sprintf deq e a [] /\ Lenf sprintf e n msg args = Len sprintf e n [] /\
    Nilf sprintf e msg args = Nil sprintf e [] /\ NotNilf sprintf e msg args = NotNil sprintf e [] /\
    Subsetf sprintf deq typeName e a msg args = Subset sprintf deq typeName e a [] /\
    NotSubsetf sprintf deq typeName e a msg args = NotSubset sprintf deq typeName e a [] /\
    Zerof sprintf deq zero e msg args = Zero sprintf deq zero e [] /\ NotZerof sprintf deq zero e msg args = NotZero sprintf deq zero e [] /\
    IsTypef sprintf e a msg args = IsType sprintf e a [] /\
    Implementsf sprintf elemOf isInterface implements e a msg args = Implements sprintf elemOf isInterface implements e a [].
  Proof.
    intros e a fuel n. assert (G : goodMessages (msgArgs msg args)) by constructor.
    repeat split; unfold Containsf, NotContainsf, ElementsMatchf, Emptyf, NotEmptyf, Equalf, NotEqualf, EqualValuesf, Exactlyf, Lenf, Nilf, NotNilf, Subsetf, NotSubsetf,
      Zerof, NotZerof, IsTypef, Implementsf, Contains, NotContains, ElementsMatch, Empty, NotEmpty, Exactly, Equal, NotEqual, EqualValues, Len, Nil, NotNil, Subset, NotSubset,
      Zero, NotZero, IsType, Implements, passOr; rewrite ?(good_fail _ _ G); auto.
    - destruct e as [ev|], a as [av|]; auto. destruct (items ev); auto. destruct (items av); auto. now rewrite matchLoop_good.
    - destruct e as [ev|], a as [av|]; auto. destruct (items av); auto. now rewrite subsetLoop_good.
    - destruct e as [ev|], a as [av|]; auto. destruct (items av); auto. now rewrite notSubsetLoop_good.
  Qed.
  Theorem C98_format_rest : forall e a f d b err s t fn info,
    Conditionf sprintf b msg args = Condition sprintf b [] /\ Truef sprintf b msg args = True_ sprintf b [] /\ Falsef sprintf b msg args = False_ sprintf b [] /\
    Failf sprintf msg args = Fail sprintf [] /\ FailNowf sprintf fn msg args = FailNow sprintf fn [] /\
    EqualErrorf sprintf err s msg args = EqualError sprintf err s [] /\ Errorf sprintf err msg args = Error_ sprintf err [] /\
    NoErrorf sprintf err msg args = NoError sprintf err [] /\ FileExistsf sprintf info msg args = FileExists sprintf info [] /\
    DirExistsf sprintf info msg args = DirExists sprintf info [] /\
    InDeltaf sprintf e a d msg args = InDelta sprintf e a d [] /\ InDeltaSlicef sprintf e a d msg args = InDeltaSlice sprintf e a d [] /\
    InDeltaMapValuesf sprintf keyEq keyAssignable e a d msg args = InDeltaMapValues sprintf keyEq keyAssignable e a d [] /\
    InEpsilonf sprintf e a d msg args = InEpsilon sprintf e a d [] /\ InEpsilonSlicef sprintf e a d msg args = InEpsilonSlice sprintf e a d [] /\
    Panicsf sprintf f msg args = Panics sprintf f [] /\ NotPanicsf sprintf f msg args = NotPanics sprintf f [] /\
    PanicsWithValuef sprintf ifaceEq e f msg args = PanicsWithValue sprintf ifaceEq e f [] /\
    Regexpf sprintf regex asRegexp sprint compile finds e a msg args = Regexp sprintf regex asRegexp sprint compile finds e a [] /\
    NotRegexpf sprintf regex asRegexp sprint compile finds e a msg args = NotRegexp sprintf regex asRegexp sprint compile finds e a [] /\
    JSONEqf sprintf unmarshal deq s t msg args = JSONEq sprintf unmarshal deq s t [].
  Proof.
    intros e a f d b err s t fn info. assert (G : goodMessages (msgArgs msg args)) by constructor.
    repeat split; unfold Conditionf, Truef, Falsef, Failf, FailNowf, EqualErrorf, Errorf, NoErrorf, FileExistsf, DirExistsf, InDeltaf, InDeltaSlicef, InDeltaMapValuesf,
      InEpsilonf, InEpsilonSlicef, Panicsf, NotPanicsf, PanicsWithValuef, Regexpf, NotRegexpf, JSONEqf, Condition, True_, False_, FailNow, EqualError, Error_, NoError,
      FileExists, DirExists, InDeltaSlice, InDeltaMapValues, InEpsilon, InEpsilonSlice, Panics, NotPanics, PanicsWithValue, Regexp, NotRegexp, JSONEq, Equal, passOr;
      rewrite ?(good_fail _ _ G), ?(InDelta_good _ _ G); auto.
    - destruct (asSlice e), (asSlice a); auto. apply pairLoop_ext. intros. now apply InDelta_good.
    - destruct (asMap e) as [[]|], (asMap a) as [[]|]; auto. now rewrite mapLoop_good.
  Qed.
  Theorem C98_format_times : forall e a d, WithinDurationf sprintf e a d msg args = WithinDuration sprintf e a d [].
  Proof. intros. assert (G : goodMessages (msgArgs msg args)) by constructor. unfold WithinDurationf, WithinDuration. now rewrite (good_fail _ _ G). Qed.
  Theorem C98_format_http : forall h m u q str,
    HTTPSuccessf sprintf newRequest h m u q msg args = HTTPSuccess sprintf newRequest h m u q [] /\
    HTTPRedirectf sprintf newRequest h m u q msg args = HTTPRedirect sprintf newRequest h m u q [] /\
    HTTPErrorf sprintf newRequest h m u q msg args = HTTPError sprintf newRequest h m u q [] /\
    HTTPBodyContainsf sprintf sprint newRequest h m u q str msg args = HTTPBodyContains sprintf sprint newRequest h m u q str [] /\
    HTTPBodyNotContainsf sprintf sprint newRequest h m u q str msg args = HTTPBodyNotContains sprintf sprint newRequest h m u q str [].
  Proof. repeat split. Qed.
  (** The text is that of the message formatted with its arguments, if there are any *)
  Theorem C98_text_partial : forall caller failure, args <> [] ->
    failfText sprintf caller failure msg args = failText sprintf caller failure [Some (VStr 24 (sprintf msg args))].
  Proof. intros caller failure N. unfold failfText, failText, msgArgs, messageFromMsgAndArgs. cbn. destruct args; [contradiction|reflexivity]. Qed.
  Theorem C98_text_bare : forall caller failure, failfText sprintf caller failure msg [] = failText sprintf caller failure [Some (VStr 24 msg)].
  Proof. reflexivity. Qed.
End Format.
(** Without arguments the message is not formatted: "100%%" is shown with both signs. *)
Definition C98_full : Prop := forall sprintf caller failure msg args,
  failfText sprintf caller failure msg args = failText sprintf caller failure [Some (VStr 24 (sprintf msg args))].
(** A Sprintf for which %% is a percent sign *)
Definition percentSprintf (format : bytes) (args : list iface) : bytes :=
  (fix go (f : bytes) : bytes := match f with 37 :: (37 :: f) => 37 :: go f | c :: f => c :: go f | [] => [] end) format.
Theorem C98_full_refuted : ~ C98_full.
Proof. intros H. specialize (H percentSprintf None (bs "slow") (bs "100%%") []). vm_compute in H. discriminate. Qed.
Example C98_example :
  FailNow exampleSprintf (Some FExits) [Some (VStr 24 (bs "stop"))] = Exit 1 /\ FailNow exampleSprintf None [Some (VInt 2 2 1)] = Pan 0 /\
  Equalf exampleSprintf exampleDeq (Some (VInt 2 2 1)) (Some (VInt 2 2 2)) (bs "one") [None] = Ret 1 false /\
  failfText percentSprintf None (bs "slow") (bs "100%%") [None] = Some ([13] ++ [13; 9] ++ bs "Error:" ++ repeat 32 3 ++ [9] ++ bs "slow" ++ [10; 13; 9] ++ bs "Messages:" ++ [9] ++ bs "100%" ++ [10]).
Proof. repeat split. Qed.

(** ** C99: HTTPSuccess, HTTPRedirect, HTTPError *)
Section C99.
  Variables (sprintf : bytes -> list iface -> bytes) (newRequest : bytes -> bytes -> bool).
  Theorem C99_status_partial : forall h m u q msgs acts c, newRequest m (u ++ [63] ++ q) = true -> h m (u ++ [63] ++ q) = (acts, FReturns) -> status acts c ->
    decides (HTTPSuccess sprintf newRequest h m u q msgs) (200 <= c <= 206) /\
    decides (HTTPRedirect sprintf newRequest h m u q msgs) (300 <= c <= 307) /\
    decides (HTTPError sprintf newRequest h m u q msgs) (400 <= c).
  Proof.
    intros h m u q msgs acts c N H S. unfold HTTPSuccess, HTTPRedirect, HTTPError, httpAssert, httpCode, target.
    rewrite N, H. cbn [negb bind after]. rewrite (record_code _ _ S). change (Fail sprintf []) with (@Ret bool 1 false).
    split; [|split].
    - apply (decides_bool ((200 <=? c) && (c <=? 206))); [|now destruct (_ && _)]. rewrite andb_true_iff, !Z.leb_le. tauto.
    - apply (decides_bool ((300 <=? c) && (c <=? 307))); [|now destruct (_ && _)]. rewrite andb_true_iff, !Z.leb_le. tauto.
    - apply (decides_bool (400 <=? c)); [|now destruct (_ <=? _)]. now rewrite Z.leb_le.
  Qed.
  Theorem C99_unbuilt : forall h m u q msgs, newRequest m (u ++ [63] ++ q) = false ->
    HTTPSuccess sprintf newRequest h m u q msgs = Ret 1 false /\ HTTPRedirect sprintf newRequest h m u q msgs = Ret 1 false /\
    HTTPError sprintf newRequest h m u q msgs = Ret 1 false.
  Proof. intros h m u q msgs N. unfold HTTPSuccess, HTTPRedirect, HTTPError, httpAssert, httpCode, target. rewrite N. repeat split. Qed.
  Theorem C99_ends : forall h m u q msgs acts e r, newRequest m (u ++ [63] ++ q) = true -> h m (u ++ [63] ++ q) = (acts, e) ->
    (exists v, e = FPanics v) /\ r = Pan 0 \/ e = FExits /\ r = Exit 0 ->
    HTTPSuccess sprintf newRequest h m u q msgs = r /\ HTTPRedirect sprintf newRequest h m u q msgs = r /\ HTTPError sprintf newRequest h m u q msgs = r.
  Proof.
    intros h m u q msgs acts e r N H E. unfold HTTPSuccess, HTTPRedirect, HTTPError, httpAssert, httpCode, target. rewrite N, H.
    destruct E as [[(v & ->) ->]|[-> ->]]; repeat split.
  Qed.
  Theorem C99_exclusive : forall h m u q msgs msgs' msgs'',
    let S := HTTPSuccess sprintf newRequest h m u q msgs in let R := HTTPRedirect sprintf newRequest h m u q msgs' in let E := HTTPError sprintf newRequest h m u q msgs'' in
    ~ (S = Ret 0 true /\ R = Ret 0 true) /\ ~ (S = Ret 0 true /\ E = Ret 0 true) /\ ~ (R = Ret 0 true /\ E = Ret 0 true).
  Proof.
    intros h m u q msgs msgs' msgs'' S R E. subst S R E. destruct (newRequest m (u ++ [63] ++ q)) eqn:N.
    - destruct (h m (u ++ [63] ++ q)) as [acts e] eqn:H. destruct e.
      + destruct (status_total acts) as (c & C).
        destruct (C99_status_partial h m u q msgs acts c N H C) as (S & _ & _). destruct (C99_status_partial h m u q msgs' acts c N H C) as (_ & R & _).
        destruct (C99_status_partial h m u q msgs'' acts c N H C) as (_ & _ & E).
        assert (X : forall r P, decides r P -> r = Ret 0 true -> P) by (intros r P [[]|[? ->]]; [auto|discriminate]).
        pose proof (X _ _ S). pose proof (X _ _ R). pose proof (X _ _ E). repeat split; intros [A B]; intuition lia.
      + assert (P := C99_ends h m u q msgs acts _ (Pan 0) N H (or_introl (conj (ex_intro _ v eq_refl) eq_refl))).
        assert (P' := C99_ends h m u q msgs' acts _ (Pan 0) N H (or_introl (conj (ex_intro _ v eq_refl) eq_refl))).
        destruct P as (-> & _). destruct P' as (_ & -> & _). repeat split; intros [A B]; discriminate.
      + assert (P := C99_ends h m u q msgs acts _ (Exit 0) N H (or_intror (conj eq_refl eq_refl))).
        assert (P' := C99_ends h m u q msgs' acts _ (Exit 0) N H (or_intror (conj eq_refl eq_refl))).
        destruct P as (-> & _). destruct P' as (_ & -> & _). repeat split; intros [A B]; discriminate.
    - destruct (C99_unbuilt h m u q msgs N) as (-> & _). destruct (C99_unbuilt h m u q msgs' N) as (_ & -> & _). repeat split; intros [A B]; discriminate.
  Qed.
End C99.
(** A success is a status of the 200s, a redirection one of the 300s *)
Definition C99_full : Prop := forall sprintf newRequest h m u q msgs acts c,
  newRequest m (u ++ [63] ++ q) = true -> h m (u ++ [63] ++ q) = (acts, FReturns) -> status acts c ->
  decides (HTTPSuccess sprintf newRequest h m u q msgs) (statusClass c 2) /\ decides (HTTPRedirect sprintf newRequest h m u q msgs) (statusClass c 3).
Theorem C99_class_refuted :
  HTTPSuccess exampleSprintf (fun _ _ => true) (fun _ _ => ([HWriteHeader 207], FReturns)) (bs "GET") (bs "/") [] [] = Ret 1 false /\
  HTTPRedirect exampleSprintf (fun _ _ => true) (fun _ _ => ([HWriteHeader 308], FReturns)) (bs "GET") (bs "/") [] [] = Ret 1 false.
Proof. repeat split. Qed.
Theorem C99_full_refuted : ~ C99_full.
Proof.
  intros H. destruct (H exampleSprintf (fun _ _ => true) (fun _ _ => ([HWriteHeader 207], FReturns)) (bs "GET") (bs "/") [] [] _ 207 eq_refl eq_refl (status_header _ _)) as ([(_ & E)|(N & _)] & _).
  - discriminate.
  - apply N. unfold statusClass. lia.
Qed.
Example C99_example : let ok (_ _ : bytes) := true in
  HTTPSuccess exampleSprintf ok (fun _ _ => ([HWrite (bs "hi"); HWriteHeader 500], FReturns)) (bs "GET") (bs "/") [] [] = Ret 0 true /\
  HTTPError exampleSprintf ok (fun m _ => ([HWriteHeader (if bytesEqual m (bs "GET") then 404 else 200); HWriteHeader 200], FReturns)) (bs "GET") (bs "/") [] [] = Ret 0 true /\
  HTTPSuccess exampleSprintf ok (fun _ _ => ([], FPanics None)) (bs "GET") (bs "/") [] [Some (VInt 2 2 0)] = Pan 0.
Proof. repeat split. Qed.

(** ** C100: HTTPBody, HTTPBodyContains, HTTPBodyNotContains and the request *)
Section C100.
  Variables (sprintf : bytes -> list iface -> bytes) (sprint : iface -> bytes) (newRequest : bytes -> bytes -> bool).
  Theorem C100_body_partial : forall h m u q str msgs acts, newRequest m (u ++ [63] ++ q) = true -> h m (u ++ [63] ++ q) = (acts, FReturns) ->
    HTTPBody newRequest h m u q = Ret 0 (bodyOf acts) /\
    decides (HTTPBodyContains sprintf sprint newRequest h m u q str msgs) (occurs (bodyOf acts) (sprint str)) /\
    decides (HTTPBodyNotContains sprintf sprint newRequest h m u q str msgs) (~ occurs (bodyOf acts) (sprint str)).
  Proof.
    intros h m u q str msgs acts N H. unfold HTTPBodyContains, HTTPBodyNotContains, HTTPBody, target. rewrite N, H. cbn [negb bind after]. rewrite record_body.
    split; auto. change (Fail sprintf []) with (@Ret bool 1 false). unfold decides. rewrite <- containsSub_spec. destruct (containsSub _ _); cbn; intuition congruence.
  Qed.
  Theorem C100_unbuilt : forall h m u q str msgs, newRequest m (u ++ [63] ++ q) = false ->
    HTTPBody newRequest h m u q = Ret 0 [] /\
    decides (HTTPBodyContains sprintf sprint newRequest h m u q str msgs) (sprint str = []) /\
    decides (HTTPBodyNotContains sprintf sprint newRequest h m u q str msgs) (sprint str <> []).
  Proof.
    intros h m u q str msgs N. unfold HTTPBodyContains, HTTPBodyNotContains, HTTPBody, target. rewrite N. cbn [negb bind after].
    split; auto. change (Fail sprintf []) with (@Ret bool 1 false). unfold decides. destruct (sprint str); cbn; intuition congruence.
  Qed.
  (** The handler is asked with the method and one URL only *)
  Theorem C100_request : forall h h' m u q str msgs, h m (u ++ [63] ++ q) = h' m (u ++ [63] ++ q) ->
    HTTPSuccess sprintf newRequest h m u q msgs = HTTPSuccess sprintf newRequest h' m u q msgs /\
    HTTPRedirect sprintf newRequest h m u q msgs = HTTPRedirect sprintf newRequest h' m u q msgs /\
    HTTPError sprintf newRequest h m u q msgs = HTTPError sprintf newRequest h' m u q msgs /\
    HTTPBodyContains sprintf sprint newRequest h m u q str msgs = HTTPBodyContains sprintf sprint newRequest h' m u q str msgs /\
    HTTPBodyNotContains sprintf sprint newRequest h m u q str msgs = HTTPBodyNotContains sprintf sprint newRequest h' m u q str msgs.
  Proof.
    intros h h' m u q str msgs E. unfold HTTPSuccess, HTTPRedirect, HTTPError, httpAssert, httpCode, HTTPBodyContains, HTTPBodyNotContains, HTTPBody, target. rewrite E. repeat split.
  Qed.
End C100.
(** The query of that URL: the values, if the given URL has neither a query nor a fragment *)
Theorem C100_query_partial : forall u q, ~ In 35 q ->
  (~ In 35 u -> ~ In 63 u -> queryOf (u ++ [63] ++ q) = Some q) /\
  (forall q0, ~ In 35 u -> queryOf u = Some q0 -> queryOf (u ++ [63] ++ q) = Some (q0 ++ [63] ++ q)) /\
  (In 35 u -> queryOf (u ++ [63] ++ q) = queryOf u).
Proof.
  intros u q Q. split; [|split].
  - intros. now apply query_plain.
  - intros. now apply query_more.
  - intros. now apply query_hash.
Qed.
Definition C100_full : Prop := forall u q, ~ In 35 q -> ~ In 35 u -> q <> [] -> exists pre, queryOf (u ++ [63] ++ q) = Some (pre ++ q) /\ (pre = [] \/ exists q0, queryOf u = Some q0 /\ pre = q0 ++ [38]).
Theorem C100_query_refuted : queryOf (bs "/find?lang=en" ++ [63] ++ bs "page=2") = Some (bs "lang=en?page=2").
Proof. reflexivity. Qed.
Theorem C100_full_refuted : ~ C100_full.
Proof.
  intros H. destruct (H (bs "/find?lang=en") (bs "page=2")) as (pre & E & [->|(q0 & F & ->)]).
  - cbn. intuition discriminate.
  - cbn. intuition discriminate.
  - discriminate.
  - vm_compute in E. discriminate.
  - vm_compute in F. injection F as <-. vm_compute in E. discriminate.
Qed.
(** HTTPBodyNotContains passes for a request that was never made, HTTPBodyContains fails with the same report as for a wrong body *)
Theorem C100_unmade_refuted : HTTPBodyNotContains exampleSprintf exampleSprint (fun _ _ => false) (fun _ _ => ([HWrite (bs "error")], FReturns)) (bs "GE T") (bs "/") [] (Some (VStr 24 (bs "error"))) [] = Ret 0 true.
Proof. reflexivity. Qed.
Example C100_example : let h (m u : bytes) := ([HWrite (bs "hello, "); HWriteHeader 500; HWrite u], FReturns) in let ok (_ _ : bytes) := true in
  HTTPBody ok h (bs "GET") (bs "/a") (bs "x=1") = Ret 0 (bs "hello, /a?x=1") /\
  HTTPBodyContains exampleSprintf exampleSprint ok h (bs "GET") (bs "/a") (bs "x=1") (Some (VStr 24 (bs ", /a?"))) [] = Ret 0 true /\
  HTTPBodyNotContains exampleSprintf exampleSprint ok h (bs "GET") (bs "/a") (bs "x=1") (Some (VStr 24 (bs ", /a?"))) [] = Ret 1 false /\
  queryOf (bs "/a" ++ [63] ++ bs "x=1") = Some (bs "x=1").
Proof. repeat split. Qed.

(** ** C101: FileExists, DirExists *)
Theorem C101_files_partial : forall sprintf fs p info msgs, goodMessages msgs -> lstats fs p info -> (forall q, fs p <> Some (NLink q)) ->
  decides (FileExists sprintf info msgs) (names fs p NFile) /\ decides (DirExists sprintf info msgs) (names fs p NDir).
Proof.
  intros sprintf fs p info msgs G L N. unfold FileExists, DirExists. rewrite Fail_good by auto. unfold decides.
  destruct L as [E|E|E|q E]; [| | |exfalso; eapply N; eauto]; cbn.
  - split; right; split; auto; inversion 1; congruence.
  - split; [right|left]; split; auto; [inversion 1; congruence|now constructor].
  - split; [left|right]; split; auto; [now constructor|inversion 1; congruence].
Qed.
Theorem C101_link : forall sprintf fs p q info msgs, goodMessages msgs -> fs p = Some (NLink q) -> lstats fs p info ->
  FileExists sprintf info msgs = Ret 0 true /\ DirExists sprintf info msgs = Ret 1 false.
Proof. intros sprintf fs p q info msgs G E L. unfold FileExists, DirExists. rewrite Fail_good by auto. destruct L as [H|H|H|r H]; try congruence. auto. Qed.
Theorem C101_error : forall sprintf msgs, goodMessages msgs -> FileExists sprintf LError msgs = Ret 1 false /\ DirExists sprintf LError msgs = Ret 1 false.
Proof. intros. unfold FileExists, DirExists. now rewrite Fail_good. Qed.
Definition C101_full : Prop := forall sprintf fs p info msgs, goodMessages msgs -> lstats fs p info ->
  decides (FileExists sprintf info msgs) (names fs p NFile) /\ decides (DirExists sprintf info msgs) (names fs p NDir).
(** A link to a directory is not taken for one, and a link to nothing is taken for a file *)
Definition linked (p : bytes) : option node := if bytesEqual p (bs "current") then Some (NLink (bs "v1")) else if bytesEqual p (bs "v1") then Some NDir else if bytesEqual p (bs "old") then Some (NLink (bs "v0")) else None.
Theorem C101_links_refuted :
  lstats linked (bs "current") (LInfo false) /\ names linked (bs "current") NDir /\ DirExists exampleSprintf (LInfo false) [] = Ret 1 false /\
  lstats linked (bs "old") (LInfo false) /\ (forall n, ~ names linked (bs "old") n) /\ FileExists exampleSprintf (LInfo false) [] = Ret 0 true.
Proof.
  split; [now apply (ls_link _ _ (bs "v1"))|]. split; [apply (names_link _ _ (bs "v1")); [reflexivity|now constructor]|]. split; [reflexivity|].
  split; [now apply (ls_link _ _ (bs "v0"))|]. split; [|reflexivity].
  intros n H. inversion H as [p E|p E|p q m E F]; subst; try discriminate. vm_compute in E. injection E as <-. inversion F as [p E|p E|p q m E K]; discriminate.
Qed.
Theorem C101_full_refuted : ~ C101_full.
Proof.
  intros H. destruct C101_links_refuted as (L & N & E & _). destruct (H exampleSprintf linked (bs "current") _ [] gm_none L) as (_ & [(_ & R)|(X & _)]).
  - congruence.
  - contradiction.
Qed.
Example C101_example : lstats linked (bs "v1") (LInfo true) /\ DirExists exampleSprintf (LInfo true) [] = Ret 0 true /\ FileExists exampleSprintf (LInfo true) [] = Ret 1 false /\
  lstats linked (bs "v2") LNotExist /\ DirExists exampleSprintf LNotExist [] = Ret 1 false.
Proof. repeat split; now constructor. Qed.

(** ** C102: CallerInfo *)
Theorem C102_callers : forall low stack own ls, testStack low stack own -> Forall2 callerLine own ls -> CallerInfo low stack = List.concat ls.
Proof. intros low stack own ls T F. unfold CallerInfo. now rewrite (callerLoop_spec low stack own T ls F). Qed.
Theorem C102_total : forall low stack, exists own ls, testStack low stack own /\ Forall2 callerLine own ls.
Proof.
  intros low stack. destruct (testStack_total low stack) as (own & T). exists own. clear -T.
  assert (F : exists ls, Forall2 callerLine own ls).
  { clear T. induction own as [|f own (ls & IH)]; [exists []; constructor|]. destruct (callerLine_total f) as (l & L). exists (l :: ls). now constructor. }
  destruct F as (ls & F). eauto.
Qed.
(** Every place of the test is told, if its file is in a directory *)
Definition C102_full : Prop := forall low stack own f dir file, testStack low stack own -> In f own -> inDirectory dir file (fFile f) -> In (file ++ [58] ++ fLine f) (CallerInfo low stack).
Definition exampleLow (s : bytes) : bool := match s with c :: _ => (97 <=? c) && (c <=? 122) | [] => false end.
Definition exampleFrame (file line name : bytes) : frame := {| fFile := file; fLine := line; fName := Some name |}.
(** A test in a package "mock" is told by nothing *)
Theorem C102_hidden_refuted :
  let f := exampleFrame (bs "/src/shop/mock/client_test.go") (bs "12") (bs "shop/mock.TestClient") in
  testStack exampleLow [f] [f] /\ CallerInfo exampleLow [f] = [].
Proof.
  split; [|reflexivity]. constructor 3.
  - intros [H|[H|H]]; discriminate.
  - exists (bs "shop/mock.TestClient"), (bs "TestClient"). split; [reflexivity|]. split.
    + apply (bn_dotted (bs "shop/mock") (bs "TestClient")). cbn. intuition discriminate.
    + apply (tn _ (bs "Test") (bs "Client")); [cbn; auto|right; reflexivity].
Qed.
Theorem C102_full_refuted : ~ C102_full.
Proof.
  intros H. destruct C102_hidden_refuted as (T & E).
  specialize (H exampleLow _ _ (exampleFrame (bs "/src/shop/mock/client_test.go") (bs "12") (bs "shop/mock.TestClient")) (bs "mock") (bs "client_test.go") T (or_introl eq_refl)).
  cbv zeta in E. rewrite E in H. apply H. apply (in_deep (bs "/src/shop")); cbn; intuition discriminate.
Qed.
Example C102_example :
  CallerInfo exampleLow
    [exampleFrame (bs "/src/testify/assert/assertions.go") (bs "230") (bs "assert.Fail"); exampleFrame (bs "/src/shop/util.go") (bs "7") (bs "shop.check");
     exampleFrame (bs "/src/shop/cart_test.go") (bs "31") (bs "shop.TestCart.func1"); exampleFrame (bs "/src/shop/cart_test.go") (bs "40") (bs "shop.TestCart");
     exampleFrame (bs "/go/testing/testing.go") (bs "909") (bs "testing.tRunner")] = [bs "util.go:7"; bs "cart_test.go:31"; bs "cart_test.go:40"] /\
  CallerInfo exampleLow [exampleFrame (bs "/src/shop/util.go") (bs "7") (bs "shop.Testify"); exampleFrame (bs "/go/testing/testing.go") (bs "909") (bs "testing.tRunner");
     exampleFrame (bs "/src/x/y.go") (bs "1") (bs "x.y")] = [bs "util.go:7"].
Proof. repeat split. Qed.

Print Assumptions C96_nil_partial.
Print Assumptions C96_unsafe.
Print Assumptions C96_full_refuted.
Print Assumptions C96_istype.
Print Assumptions C96_implements.
Print Assumptions C96_implements_panics.
Print Assumptions C97_regexp.
Print Assumptions C97_bad.
Print Assumptions C97_json.
Print Assumptions C97_bytes_refuted.
Print Assumptions C97_full_refuted.
Print Assumptions C98_failnow.
Print Assumptions C98_never_passes.
Print Assumptions C98_format_values.
Print Assumptions C98_format_rest.
Print Assumptions C98_format_times.
Print Assumptions C98_format_http.
Print Assumptions C98_text_partial.
Print Assumptions C98_text_bare.
Print Assumptions C98_full_refuted.
Print Assumptions C99_status_partial.
Print Assumptions C99_unbuilt.
Print Assumptions C99_ends.
Print Assumptions C99_exclusive.
Print Assumptions C99_class_refuted.
Print Assumptions C99_full_refuted.
Print Assumptions C100_body_partial.
Print Assumptions C100_unbuilt.
Print Assumptions C100_request.
Print Assumptions C100_query_partial.
Print Assumptions C100_query_refuted.
Print Assumptions C100_full_refuted.
Print Assumptions C100_unmade_refuted.
Print Assumptions C101_files_partial.
Print Assumptions C101_link.
Print Assumptions C101_error.
Print Assumptions C101_links_refuted.
Print Assumptions C101_full_refuted.
Print Assumptions C102_callers.
Print Assumptions C102_total.
Print Assumptions C102_hidden_refuted.
Print Assumptions C102_full_refuted.
