(** C110: the difference that testify's Equal reports *)
From Verif Require Import Base SpewModel SpewSpec SpewProofs2 SpewProofs3 SpewProofs4 SpewProps EqDiffModel.
From Verif Require DiffModel DiffSpec DiffProps.
Open Scope Z_scope.
Open Scope list_scope.
From Coq Require Import Permutation Lia.

Section C110.
  Variable decimal : Z -> bytes.
  Variable quote : bytes -> bytes.
  Variable hexDump : bytes -> bytes.
  Variable method : sval -> option mcall.
  Variable valueEq : sval -> sval -> bool.
  Variable spewKey : sval -> bytes.
  Variable sortBy : (entry -> entry -> bool) -> list entry -> list entry.
  Variable sprintfOther : bytes -> bytes.
  Variable typeOf : sval -> Z.
  Variable kindOf : Z -> Z.
  Variable elemOf : Z -> Z.
  Variable shown : option sval -> bytes.
  Notation diff h := (diff decimal quote hexDump method valueEq spewKey sortBy h sprintfOther typeOf kindOf elemOf).
  Notation message h := (unequalMessage decimal quote hexDump method valueEq spewKey sortBy h sprintfOther typeOf kindOf elemOf shown).
  Notation Sdump h := (Sdump decimal quote hexDump method valueEq spewKey sortBy h).
  (** The type of a value, or of what it points to *)
  Definition shownType (v : sval) (t : Z) : Prop := (kindOf (typeOf v) = 22 /\ t = elemOf (typeOf v)) \/ (kindOf (typeOf v) <> 22 /\ t = typeOf v).
  (** Both are structs, maps, slices or arrays of one type, or pointers to such *)
  Definition compared (e a : option sval) : Prop :=
    exists e' a' t, e = Some e' /\ a = Some a' /\ shownType e' t /\ shownType a' t /\ In (kindOf t) [17; 21; 23; 25].
  Lemma typeAndKind_spec v : shownType v (fst (typeAndKind typeOf kindOf elemOf v)) /\ snd (typeAndKind typeOf kindOf elemOf v) = kindOf (fst (typeAndKind typeOf kindOf elemOf v)).
  Proof. unfold typeAndKind, shownType. destruct (kindOf (typeOf v) =? 22) eqn:K; cbn [fst snd]; [apply Z.eqb_eq in K|apply Z.eqb_neq in K]; auto. Qed.
  Lemma shownType_det v t t' : shownType v t -> shownType v t' -> t = t'.
  Proof. intros [[A ->]|[A ->]] [[B ->]|[B ->]]; congruence. Qed.
  Definition theDiff (e a : bytes) : DiffModel.Diff := DiffModel.mkDiff (DiffModel.SplitLines e) (bs "Expected") [] (DiffModel.SplitLines a) (bs "Actual") [] [] 1.

  (** Nothing is said about other values *)
  Theorem C110_silent h fuel e a : ~ compared e a -> diff h fuel e a = Some (Some []).
  Proof.
    intros N. unfold EqDiffModel.diff. destruct e as [e|]; [|reflexivity]. destruct a as [a|]; [|reflexivity].
    destruct (typeAndKind_spec e) as [Se Ke]. destruct (typeAndKind_spec a) as [Sa _]. destruct (typeAndKind typeOf kindOf elemOf e) as [et ek]. destruct (typeAndKind typeOf kindOf elemOf a) as [ta ak]. cbn [fst snd] in *.
    destruct (et =? ta) eqn:T; [|reflexivity]. apply Z.eqb_eq in T. subst ta. cbn [negb].
    destruct (ek =? 25) eqn:A1, (ek =? 21) eqn:A2, (ek =? 23) eqn:A3, (ek =? 17) eqn:A4; cbn [negb andb]; try reflexivity; rewrite ?Z.eqb_eq in *; exfalso; apply N; exists e, a, et; (repeat split; auto); cbn; subst ek; lia.
  Qed.
  Lemma diff_compared h fuel e a : compared (Some e) (Some a) -> diff h fuel (Some e) (Some a) =
    match Sdump h fuel e with
    | Some (Some te) => match Sdump h fuel a with
      | Some (Some ta) => Some (match unified decimal sprintfOther te ta with Some d => Some ([10; 10] ++ bs "Diff:" ++ [10] ++ d) | None => None end)
      | r => r end
    | r => r end.
  Proof.
    intros (e' & a' & t & Ee & Ea & He & Ha & K). injection Ee as <-. injection Ea as <-. unfold EqDiffModel.diff.
    destruct (typeAndKind_spec e) as [Se Ke]. destruct (typeAndKind_spec a) as [Sa _]. destruct (typeAndKind typeOf kindOf elemOf e) as [et ek]. destruct (typeAndKind typeOf kindOf elemOf a) as [ta ak]. cbn [fst snd] in *.
    rewrite (shownType_det _ _ _ Se He) in *. rewrite (shownType_det _ _ _ Sa Ha) in *. rewrite Z.eqb_refl. cbn [negb].
    assert (X : negb (ek =? 25) && negb (ek =? 21) && negb (ek =? 23) && negb (ek =? 17) = false).
    { subst ek. cbn in K. destruct K as [K|[K|[K|[K|[]]]]]; rewrite <- K; reflexivity. }
    rewrite X. reflexivity.
  Qed.
  Lemma splitLines_inj s t : DiffModel.SplitLines s = DiffModel.SplitLines t -> s = t.
  Proof.
    intros E. destruct (DiffProps.C63_lines s) as (A & _). destruct (DiffProps.C63_lines t) as (B & _). rewrite E in A. rewrite A in B. apply app_inj_tail in B. apply B.
  Qed.
  (** For compared values the hunks turn the lines of the one dump into the lines of the other, with one line around each change; there are none only if the
      dumps are the same.  With a % a line may be shown as something else *)
  Theorem C110_text h fuel e a te ta : compared (Some e) (Some a) -> Sdump h fuel e = Some (Some te) -> Sdump h fuel a = Some (Some ta) ->
    lenZ (DiffModel.SplitLines te) < 2 ^ 62 -> lenZ (DiffModel.SplitLines ta) < 2 ^ 62 ->
    exists hs, diff h fuel (Some e) (Some a) = Some (Some ([10; 10] ++ bs "Diff:" ++ [10] ++ DiffSpec.unified_text decimal (DiffModel.Sprintf sprintfOther) (theDiff te ta) hs)) /\
      DiffSpec.patches (DiffModel.SplitLines te) (DiffModel.SplitLines ta) 0 0 hs /\ Forall (DiffSpec.hunk_ok 1) hs /\ (hs = [] <-> te = ta).
  Proof.
    intros C De Da Le La. destruct (DiffProps.C47_text decimal sprintfOther (theDiff te ta)) as (hs & E & P & K & Z0); [reflexivity|exact Le|exact La|].
    exists hs. rewrite diff_compared by exact C. rewrite De, Da. unfold unified. fold (theDiff te ta). rewrite E. split; [reflexivity|]. split; [exact P|]. split; [exact K|].
    rewrite Z0. cbn [theDiff DiffModel.dA DiffModel.dB]. split; [apply splitLines_inj|intros ->; reflexivity].
  Qed.
  (** Without a % the lines are shown as they are *)
  Theorem C110_verbatim_partial h fuel e a te ta : compared (Some e) (Some a) -> Sdump h fuel e = Some (Some te) -> Sdump h fuel a = Some (Some ta) ->
    lenZ (DiffModel.SplitLines te) < 2 ^ 62 -> lenZ (DiffModel.SplitLines ta) < 2 ^ 62 -> ~ In 37 te -> ~ In 37 ta ->
    exists hs, diff h fuel (Some e) (Some a) = Some (Some ([10; 10] ++ bs "Diff:" ++ [10] ++ DiffSpec.unified_text decimal (fun l => l) (theDiff te ta) hs)) /\
      DiffSpec.patches (DiffModel.SplitLines te) (DiffModel.SplitLines ta) 0 0 hs /\ Forall (DiffSpec.hunk_ok 1) hs /\ (hs = [] <-> te = ta).
  Proof.
    intros C De Da Le La Ne Na. destruct (DiffProps.C47_verbatim_partial decimal sprintfOther (theDiff te ta)) as (hs & E & P & K & Z0); [reflexivity|exact Le|exact La| |].
    - assert (G : forall s, ~ In 37 s -> Forall DiffSpec.no_percent (DiffModel.SplitLines s)).
      { intros s N. apply Forall_forall. intros l I J. destruct (DiffProps.C63_lines s) as (A & _). assert (X : In 37 (s ++ [10])) by (rewrite <- A; apply in_concat; eauto).
        apply in_app_iff in X. destruct X as [X|[X|[]]]; [exact (N X)|discriminate]. }
      apply Forall_app. split; apply G; assumption.
    - exists hs. rewrite diff_compared by exact C. rewrite De, Da. unfold unified. fold (theDiff te ta). rewrite E. split; [reflexivity|]. split; [exact P|]. split; [exact K|].
      rewrite Z0. cbn [theDiff DiffModel.dA DiffModel.dB]. split; [apply splitLines_inj|intros ->; reflexivity].
  Qed.
  (** The report ends if Dump ends for both values: every way back goes through a pointer, and pointers do not go round among themselves *)
  Theorem C110_ends_partial h e a addrs : (forall less l, Permutation (sortBy less l) l) ->
    (forall v, e = Some v \/ a = Some v -> chains_end h v /\ nesting_ends h v /\ addresses_in h v addrs) ->
    exists fuel, message h fuel e a <> None.
  Proof.
    intros P W. destruct e as [e|]; [|exists O; unfold unequalMessage, EqDiffModel.diff; discriminate]. destruct a as [a|]; [|exists O; unfold unequalMessage, EqDiffModel.diff; discriminate].
    assert (D : forall v, chains_end h v /\ nesting_ends h v /\ addresses_in h v addrs -> exists f, Sdump h f v <> None).
    { intros v (A & B & C). destruct (C103_ends_partial decimal quote hexDump method valueEq spewKey sortBy testifyConfig h v addrs P A B C false (newDump [])) as (f & N). exists f.
      unfold EqDiffModel.Sdump. cbn [fdump]. destruct (dump _ _ _ _ _ _ _ _ _ _ _ _ _); [discriminate|discriminate|congruence]. }
    assert (M : forall v f g, (f <= g)%nat -> Sdump h f v <> None -> Sdump h g v <> None).
    { intros v f g L N. unfold EqDiffModel.Sdump in *. cbn [fdump] in *. rewrite (C103_result decimal quote hexDump method valueEq spewKey sortBy testifyConfig h f g false v (newDump []) L); [exact N|]. intros X. rewrite X in N. congruence. }
    destruct (D e (W e (or_introl eq_refl))) as (f1 & N1). destruct (D a (W a (or_intror eq_refl))) as (f2 & N2). exists (f1 + f2)%nat.
    apply (M e f1 (f1 + f2)%nat ltac:(lia)) in N1. apply (M a f2 (f1 + f2)%nat ltac:(lia)) in N2. unfold unequalMessage, EqDiffModel.diff.
    destruct (typeAndKind typeOf kindOf elemOf e) as [et ek]. destruct (typeAndKind typeOf kindOf elemOf a) as [at_ ak]. destruct (negb (et =? at_)); [discriminate|].
    destruct (_ && _ && _ && _); [discriminate|]. destruct (Sdump h (f1 + f2) e) as [[te|]|]; [|discriminate|congruence]. destruct (Sdump h (f1 + f2) a) as [[ta|]|]; [|discriminate|congruence].
    destruct (unified decimal sprintfOther te ta); discriminate.
  Qed.
  (** The order in which maps give their keys does not matter, for keys that are booleans, integers, strings or arrays of these *)
  Theorem C110_order_partial h h' fuel e a : sorts sortBy -> (forall x y, sameKind x y -> (valueEq x y = true <-> x = y)) -> reordered h h' ->
    (forall r, plainKeys (entries h r) /\ distinctKeys (entries h r)) -> message h fuel e a = message h' fuel e a.
  Proof.
    intros S E R G. unfold unequalMessage. replace (diff h fuel e a) with (diff h' fuel e a); [reflexivity|].
    assert (D : forall v, Sdump h fuel v = Sdump h' fuel v) by (intros v; apply C105_plain_partial; auto).
    unfold EqDiffModel.diff. destruct e as [e|]; [|reflexivity]. destruct a as [a|]; [|reflexivity]. rewrite !D. reflexivity.
  Qed.
  (** Where the values lie does not matter: addresses are not shown.  [method] and [typeOf] must not depend on addresses, and keys must not be pointers *)
  Theorem C110_addresses h rho fuel e a : (forall x y, rho x = rho y -> x = y) -> (forall v, method (moved rho v) = method v) -> (forall v, typeOf (moved rho v) = typeOf v) ->
    sorts sortBy -> (forall x y, sameKind x y -> (valueEq x y = true <-> x = y)) -> (forall r, plainKeys (entries h r) /\ NoDup (map fst (entries h r))) ->
    diff (movedHeap rho h) fuel (option_map (moved rho) e) (option_map (moved rho) a) = diff h fuel e a.
  Proof.
    intros I M T S E G. assert (D : forall v, Sdump (movedHeap rho h) fuel (moved rho v) = Sdump h fuel v).
    { intros v. unfold EqDiffModel.Sdump. cbn [fdump]. change (newDump []) with (movedSt rho (newDump [])) at 1.
      rewrite (dump_moved rho I decimal quote hexDump method valueEq spewKey sortBy testifyConfig M eq_refl E S h (fun _ => G) fuel false v (newDump [])). destruct (dump _ _ _ _ _ _ _ _ _ _ _ _ _); reflexivity. }
    unfold EqDiffModel.diff. destruct e as [e|]; [|reflexivity]. destruct a as [a|]; [|reflexivity]. cbn [option_map]. rewrite !D.
    assert (K : forall v, typeAndKind typeOf kindOf elemOf (moved rho v) = typeAndKind typeOf kindOf elemOf v) by (intros v; unfold typeAndKind; rewrite T; reflexivity). rewrite !K. reflexivity.
  Qed.
  (** The message around the difference *)
  Theorem C110_message h fuel e a d : diff h fuel e a = Some (Some d) ->
    message h fuel e a = Some (Some (bs "Not equal: " ++ [10] ++ bs "expected: " ++ shown e ++ [10] ++ bs "actual  : " ++ shown a ++ d)).
  Proof. intros E. unfold unequalMessage. rewrite E. reflexivity. Qed.
End C110.

(** ** Examples and what does not hold *)
(** Types by their text: the kinds of the types below *)
Definition tM := bs "map[string]int".
Definition tS := bs "main.S".
Definition tPS := bs "*main.S".
Definition tL := bs "[]interface {}".
Definition numberOf (v : sval) : Z :=
  if list_eq_dec Z.eq_dec (typeText v) tM then 1 else if list_eq_dec Z.eq_dec (typeText v) tS then 2 else if list_eq_dec Z.eq_dec (typeText v) tPS then 3 else
  if list_eq_dec Z.eq_dec (typeText v) tL then 4 else 5.
Definition kindOfNumber (n : Z) : Z := nth (Z.to_nat n) [0; 21; 25; 22; 23; 2] 0.
Definition elemOfNumber (n : Z) : Z := if n =? 3 then 2 else 0.
Definition str (s : bytes) : sval := SBasic (bs "string") (BStr s).
Definition twoMaps : heap := {| cell := fun _ => SStruct tS [(bs "A", true, int 1)]; elems := fun _ => [SIface (bs "interface {}") (Some (SSlice tL 1 (Some 0)))];
  entries := fun r => if r =? 0 then [(str (bs "b"), Some (int 2)); (str (bs "a"), Some (int 1))] else [(str (bs "a"), Some (int 1)); (str (bs "b"), Some (int 3))] |}.
Definition twoMaps' : heap := {| cell := cell twoMaps; elems := elems twoMaps;
  entries := fun r => if r =? 0 then [(str (bs "a"), Some (int 1)); (str (bs "b"), Some (int 2))] else [(str (bs "a"), Some (int 1)); (str (bs "b"), Some (int 3))] |}.
Definition mE := SMap tM (Some 0).
Definition mA := SMap tM (Some 1).
Notation diffWith m h e a := (diff dec quoted rowDump m svalEq noKey isort h (fun s => s) numberOf kindOfNumber elemOfNumber 9 e a).
Definition nl := [10].
Definition head := [10; 10] ++ bs "Diff:" ++ nl.
Example C110_example :
  compared numberOf kindOfNumber elemOfNumber (Some mE) (Some mA) /\
  Sdump dec quoted rowDump noMethod svalEq noKey isort twoMaps 9 mE =
    Some (Some (bs "(map[string]int) (len=2) {" ++ nl ++ bs " (string) (len=1) ""a"": (int) 1," ++ nl ++ bs " (string) (len=1) ""b"": (int) 2" ++ nl ++ bs "}" ++ nl)) /\
  diffWith noMethod twoMaps (Some mE) (Some mA) = Some (Some (head ++ bs "--- Expected" ++ nl ++ bs "+++ Actual" ++ nl ++ bs "@@ -2,3 +2,3 @@" ++ nl ++
    bs "  (string) (len=1) ""a"": (int) 1," ++ nl ++ bs "- (string) (len=1) ""b"": (int) 2" ++ nl ++ bs "+ (string) (len=1) ""b"": (int) 3" ++ nl ++ bs " }" ++ nl)) /\
  diffWith noMethod twoMaps' (Some mE) (Some mA) = diffWith noMethod twoMaps (Some mE) (Some mA).
Proof.
  split; [|split; [vm_compute; reflexivity|split; vm_compute; reflexivity]].
  exists mE, mA, 1. repeat split; try (right; split; [discriminate|reflexivity]). right. left. reflexivity.
Qed.
(** The hypotheses of C110_order_partial and C110_ends_partial *)
Example C110_order_example shown fuel :
  unequalMessage dec quoted rowDump noMethod svalEq noKey isort twoMaps (fun s => s) numberOf kindOfNumber elemOfNumber shown fuel (Some mE) (Some mA) =
  unequalMessage dec quoted rowDump noMethod svalEq noKey isort twoMaps' (fun s => s) numberOf kindOfNumber elemOfNumber shown fuel (Some mE) (Some mA).
Proof.
  apply C110_order_partial; [exact isort_sorts|exact svalEq_spec| |].
  - split; [reflexivity|]. split; [reflexivity|]. intros r. cbn [twoMaps twoMaps' entries]. destruct (r =? 0); [apply perm_swap|reflexivity].
  - intros r. cbn [twoMaps entries]. destruct (r =? 0); (split; [left; intros a b [<-|[<-|[]]] [<-|[<-|[]]]; constructor|intros a b [<-|[<-|[]]] [<-|[<-|[]]] E; try reflexivity; discriminate]).
Qed.
(** Two pointers at other places *)
Example C110_addresses_example : let rho x := x + 8 in
  moved rho (SPtr tPS (Some (8, 0))) = SPtr tPS (Some (16, 0)) /\
  diffWith noMethod (movedHeap rho twoMaps) (Some (moved rho (SPtr tPS (Some (8, 0))))) (Some (SPtr tPS None)) = diffWith noMethod twoMaps (Some (SPtr tPS (Some (8, 0)))) (Some (SPtr tPS None)) /\
  (forall v, numberOf (moved rho v) = numberOf v) /\ (forall r, plainKeys (entries twoMaps r) /\ NoDup (map fst (entries twoMaps r))).
Proof.
  split; [reflexivity|]. split; [vm_compute; reflexivity|]. split.
  - intros v. unfold numberOf. rewrite typeText_moved. reflexivity.
  - intros r. cbn [twoMaps entries]. destruct (r =? 0); (split; [left; intros a b [<-|[<-|[]]] [<-|[<-|[]]]; constructor|]); (constructor; [intros [E|[]]; discriminate|constructor; [intros []|constructor]]).
Qed.
Example C110_ends_example shown : exists fuel, unequalMessage dec quoted rowDump noMethod svalEq noKey isort ringHeap (fun s => s) numberOf kindOfNumber elemOfNumber shown fuel (Some ring) (Some ring) <> None.
Proof.
  destruct C103_example as (_ & _ & A & B & C & _). apply (C110_ends_partial _ _ _ _ _ _ _ _ _ _ _ _ _ _ _ [4096]); [exact isort_perm|]. intros v [E|E]; injection E as <-; auto.
Qed.
(** Pointers: one is followed, and nothing is said about a pointer to a pointer, another type or nil *)
Example C110_silent_example :
  ~ compared numberOf kindOfNumber elemOfNumber (Some (int 1)) (Some (int 2)) /\ ~ compared numberOf kindOfNumber elemOfNumber (Some mE) (Some (SStruct tS [])) /\ ~ compared numberOf kindOfNumber elemOfNumber None (Some mE) /\
  compared numberOf kindOfNumber elemOfNumber (Some (SPtr tPS (Some (8, 0)))) (Some (SStruct tS [])) /\
  diffWith noMethod twoMaps (Some (SPtr tPS (Some (8, 0)))) (Some (SPtr tPS None)) = Some (Some (head ++ bs "--- Expected" ++ nl ++ bs "+++ Actual" ++ nl ++ bs "@@ -1,4 +1,2 @@" ++ nl ++
    bs "-(*main.S)({" ++ nl ++ bs "- A: (int) 1" ++ nl ++ bs "-})" ++ nl ++ bs "+(*main.S)(<nil>)" ++ nl ++ bs " " ++ nl)).
Proof.
  assert (T : forall v n t, numberOf v = n -> kindOfNumber n <> 22 -> shownType numberOf kindOfNumber elemOfNumber v t -> t = n).
  { intros v n t <- N [[A _]|[_ A]]; [contradiction|exact A]. }
  split; [|split; [|split; [|split; [|vm_compute; reflexivity]]]].
  - intros (e & a & t & Ee & _ & S & _ & K). injection Ee as <-. apply (T _ 5) in S; [|reflexivity|discriminate]. subst t. vm_compute in K. intuition discriminate.
  - intros (e & a & t & Ee & Ea & S & S' & K). injection Ee as <-. injection Ea as <-. apply (T _ 1) in S; [|reflexivity|discriminate]. apply (T _ 2) in S'; [|reflexivity|discriminate]. congruence.
  - intros (e & a & t & Ee & _). discriminate.
  - exists (SPtr tPS (Some (8, 0))), (SStruct tS []), 2. split; [reflexivity|]. split; [reflexivity|]. split; [left; split; reflexivity|]. split; [right; split; [discriminate|reflexivity]|]. cbn. auto.
Qed.
(** Every report ends and shows, for unequal values that are compared, at least one changed line *)
Definition C110_full : Prop := forall decimal quote hexDump method valueEq spewKey sortBy other typeOf kindOf elemOf h e a, sorts sortBy -> compared typeOf kindOf elemOf (Some e) (Some a) -> e <> a ->
  exists fuel te ta hs, diff decimal quote hexDump method valueEq spewKey sortBy h other typeOf kindOf elemOf fuel (Some e) (Some a) =
    Some (Some ([10; 10] ++ bs "Diff:" ++ [10] ++ DiffSpec.unified_text decimal (fun l => l) (theDiff te ta) hs)) /\ hs <> [].
(** A slice that contains itself: Equal does not return *)
Theorem C110_ends_refuted : forall fuel a, compared numberOf kindOfNumber elemOfNumber (Some (SSlice tL 1 (Some 0))) (Some a) ->
  diff dec quoted rowDump noMethod svalEq noKey isort twoMaps (fun s => s) numberOf kindOfNumber elemOfNumber fuel (Some (SSlice tL 1 (Some 0))) (Some a) = None.
Proof.
  intros fuel a C. rewrite diff_compared by exact C. unfold Sdump. cbn [fdump].
  rewrite (C103_slice_refuted dec quoted rowDump noMethod svalEq noKey isort testifyConfig twoMaps tL 1 0 (SIface (bs "interface {}") (Some (SSlice tL 1 (Some 0)))) []); reflexivity.
Qed.
(** A String method hides what differs: the report has no lines *)
Definition stringer (v : sval) : option mcall := match v with SStruct _ _ => Some (MReturns (bs "S")) | _ => None end.
Definition sOne := SStruct tS [(bs "A", true, int 1)].
Definition sTwo := SStruct tS [(bs "A", true, int 2)].
Theorem C110_hidden_refuted : sOne <> sTwo /\ compared numberOf kindOfNumber elemOfNumber (Some sOne) (Some sTwo) /\ diffWith stringer twoMaps (Some sOne) (Some sTwo) = Some (Some head).
Proof.
  split; [discriminate|]. split; [|vm_compute; reflexivity].
  exists sOne, sTwo, 2. split; [reflexivity|]. split; [reflexivity|]. split; [right; split; [discriminate|reflexivity]|]. split; [right; split; [discriminate|reflexivity]|]. cbn. auto.
Qed.
(** A percent sign in a text is taken for a verb *)
Definition sDone := SStruct tS [(bs "A", true, str (bs "100% done"))].
Theorem C110_percent_refuted : exists t t', diffWith noMethod twoMaps (Some sDone) (Some sOne) = Some (Some (t ++ bs "- A: (string) (len=9) ""100%!d(MISSING)one""" ++ t')).
Proof.
  exists (head ++ bs "--- Expected" ++ nl ++ bs "+++ Actual" ++ nl ++ bs "@@ -1,3 +1,3 @@" ++ nl ++ bs " (main.S) {" ++ nl), (nl ++ bs "+ A: (int) 1" ++ nl ++ bs " }" ++ nl).
  vm_compute. reflexivity.
Qed.
Theorem C110_full_refuted : ~ C110_full.
Proof.
  intros F. assert (C : compared numberOf kindOfNumber elemOfNumber (Some (SSlice tL 1 (Some 0))) (Some (SSlice tL 1 None))).
  { exists (SSlice tL 1 (Some 0)), (SSlice tL 1 None), 4. split; [reflexivity|]. split; [reflexivity|]. split; [right; split; [discriminate|reflexivity]|]. split; [right; split; [discriminate|reflexivity]|]. cbn. auto. }
  destruct (F dec quoted rowDump noMethod svalEq noKey isort (fun s => s) numberOf kindOfNumber elemOfNumber twoMaps _ _ isort_sorts C ltac:(discriminate)) as (fuel & te & ta & hs & E & _).
  rewrite C110_ends_refuted in E by exact C. discriminate.
Qed.
Print Assumptions C110_silent.
Print Assumptions C110_text.
Print Assumptions C110_verbatim_partial.
Print Assumptions C110_ends_partial.
Print Assumptions C110_order_partial.
Print Assumptions C110_addresses.
Print Assumptions C110_message.
Print Assumptions C110_ends_refuted.
Print Assumptions C110_hidden_refuted.
Print Assumptions C110_percent_refuted.
Print Assumptions C110_full_refuted.
