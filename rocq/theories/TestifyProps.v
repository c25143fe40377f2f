(** C85-C90, C93-C95: the assertions of test/testify/assert. *)
From Verif Require Import Base JsonFloatModel TestifyModel TestifySpec TestifyProofs.
From Coq Require Import Permutation Lia.
Open Scope Z_scope.
Open Scope list_scope.

(** * C85: the report *)
(** Every text has one list of lines, and one list of lines that are shown. *)
Theorem C85_lines : forall m, exists raw out, lines m raw /\ shown raw out /\ forall out', shown raw out' -> out' = out.
Proof.
  intros m. destruct (lines_total _ m (le_n _)) as [raw L]. exists raw, (scan (List.length m) m).
  pose proof (scan_shown _ _ L _ (le_n _)) as S. split; auto. split; auto. intros out' S'. symmetry. eapply shown_fun; eauto.
Qed.
(** The report: a carriage return, as many spaces as testing writes, the label with the lines of the failure below each other, and the same for
    the message if it is not empty. *)
Theorem C85_report_partial : forall sprintf caller failure msgs message rawF outF rawM outM,
  messageText sprintf msgs message -> lines failure rawF -> shown rawF outF -> lines message rawM -> shown rawM outM ->
  let w := match caller with Some (file, line) => (List.length file + List.length line + 10)%nat | None => 0%nat end in
  failText sprintf caller failure msgs =
  Some (match message with
        | [] => [13] ++ repeat 32 w ++ [13; 9] ++ bs "Error:" ++ [9] ++ joined (align 5) outF ++ [10]
        | _ => [13] ++ repeat 32 w ++ [13; 9] ++ bs "Error:   " ++ [9] ++ joined (align 8) outF ++ [10; 13; 9] ++ bs "Messages:" ++ [9] ++ joined (align 8) outM ++ [10]
        end).
Proof.
  intros sprintf caller failure msgs message rawF outF rawM outM M LF SF LM SM w.
  assert (E : messageFromMsgAndArgs sprintf msgs = Some message) by (destruct M; reflexivity).
  assert (W : getWhitespaceString caller = repeat 32 w).
  { destruct caller as [[file line]|]; auto. unfold getWhitespaceString, spaces. f_equal. rewrite !app_length, repeat_length. cbn. lia. }
  unfold failText. rewrite E, W. clear W. generalize (repeat 32 w). intros sp. clear w. f_equal.
  destruct message as [|c message].
  - change (0 <? List.length (@nil Z))%nat with false. cbv iota. unfold labeledOutput.
    match goal with |- context [longest ?l] => change (longest l) with 5%nat end. cbn [fold_left fst snd].
    rewrite (indentMessageLines_spec _ _ _ _ LF SF). generalize (joined (align 5) outF). intros J. reflexivity.
  - change (0 <? List.length (c :: message))%nat with true. cbv iota. unfold labeledOutput. cbn [app].
    match goal with |- context [longest ?l] => change (longest l) with 8%nat end. cbn [fold_left fst snd].
    rewrite (indentMessageLines_spec _ _ _ _ LF SF), (indentMessageLines_spec _ _ _ _ LM SM).
    generalize (joined (align 8) outF). generalize (joined (align 8) outM). intros J1 J2.
    f_equal. f_equal. cbn. rewrite <- !app_assoc. reflexivity.
Qed.
(** No line is lost if none has 65536 bytes. *)
Theorem C85_whole : forall raw out, shown raw out -> Forall short raw -> Forall2 chomped raw out.
Proof.
  induction 1; intros F; inversion F; subst; auto; contradiction.
Qed.
(** A first message that is not a string makes every failure a panic, without a report. *)
Theorem C85_bad_message : forall sprintf msgs, (goodMessages msgs -> Fail sprintf msgs = Ret 1 false) /\ (~ goodMessages msgs -> Fail sprintf msgs = Pan 0).
Proof. intros. split; [apply Fail_good|apply Fail_bad]. Qed.
(** Every line of the failure is in the report *)
Definition C85_full : Prop := forall sprintf caller failure msgs raw l text, lines failure raw -> In l raw ->
  failText sprintf caller failure msgs = Some text -> exists c, chomped l c /\ occurs text c.
(** From the first line of 65536 bytes or more on, nothing is shown. *)
Theorem C85_cut_refuted : forall pre l post out, Forall short pre -> ~ short l -> shown (pre ++ l :: post) out -> Forall2 chomped pre out.
Proof.
  induction pre as [|p pre IH]; cbn; intros l post out F N S; inversion F; subst; inversion S; subst; try contradiction; constructor; eauto.
Qed.
Theorem C85_full_refuted : ~ C85_full.
Proof.
  intros F. set (l := repeat 97 (Z.to_nat 65536)).
  assert (N : ~ In 10 l). { unfold l. intros H. apply repeat_spec in H. discriminate. }
  assert (S : ~ short l). { unfold short, lineLimit, l. rewrite repeat_length, Z2Nat.id; lia. }
  assert (NE : l <> []). { intros E. apply (f_equal (fun l => Z.of_nat (List.length l))) in E. unfold l in E. rewrite repeat_length, Z2Nat.id in E; cbn in E; lia. }
  pose proof (lines_last l NE N) as L.
  pose proof (C85_report_partial exampleSprintf None l [] [] [l] [] [] [] (mt_none _) L (shown_long l [] S) lines_nil shown_nil) as R.
  cbv zeta iota in R. match type of R with _ = Some ?t => set (T := t) in R end.
  assert (LT : List.length T = 11%nat) by reflexivity. clearbody T.
  destruct (F _ _ _ _ _ l _ L (or_introl eq_refl) R) as (c & C & a & b & O).
  assert (LC : 65535 <= Z.of_nat (List.length c)).
  { inversion C as [x X Y|x X Y Z].
    - apply (f_equal (fun l => Z.of_nat (List.length l))) in X. rewrite app_length in X. unfold l in X. rewrite repeat_length in X. cbn [List.length] in X.
      rewrite Nat2Z.inj_add, Z2Nat.id in X by lia. subst x. lia.
    - unfold l. rewrite repeat_length, Z2Nat.id; lia. }
  apply (f_equal (fun l => Z.of_nat (List.length l))) in O. rewrite LT, !app_length in O. lia.
Qed.
Example C85_example :
  let failure := bs "a" ++ [13; 10] ++ bs "b" in
  lines failure [bs "a" ++ [13]; bs "b"] /\ shown [bs "a" ++ [13]; bs "b"] [bs "a"; bs "b"] /\
  failText exampleSprintf (Some (bs "x.go", bs "7")) failure [Some (VStr 24 (bs "m"))] =
  Some ([13] ++ repeat 32 15 ++ [13; 9] ++ bs "Error:   " ++ [9] ++ bs "a" ++ [10; 13; 9] ++ repeat 32 9 ++ [9] ++ bs "b" ++ [10; 13; 9] ++ bs "Messages:" ++ [9] ++ bs "m" ++ [10]) /\
  ~ goodMessages [Some (VInt 2 2 5)].
Proof.
  assert (L : lines (bs "a" ++ [13; 10] ++ bs "b") [bs "a" ++ [13]; bs "b"]).
  { change (bs "a" ++ [13; 10] ++ bs "b") with ((bs "a" ++ [13]) ++ 10 :: bs "b"). apply lines_more; [cbn; intros [H|[H|[]]]; discriminate|].
    apply lines_last; [discriminate|]. cbn. intros [H|[]]; discriminate. }
  split; [exact L|]. split; [|split; [reflexivity|intros H; inversion H]].
  apply shown_short; [unfold short, lineLimit; cbn; lia|constructor|].
  apply shown_short; [unfold short, lineLimit; cbn; lia| |constructor].
  apply chomped_no. intros l' H. destruct l' as [|? [|? ?]]; discriminate.
Qed.

(** * C86: Equal, NotEqual, Exactly, EqualValues *)
(** Equal passes for values that DeepEqual takes for equal, none of them a function; the comparison of slices of bytes makes no difference. *)
Theorem C86_equal : forall sprintf deq expected actual msgs, deqBytes deq -> goodMessages msgs ->
  decides (Equal sprintf deq expected actual msgs) (~ isFunc expected /\ ~ isFunc actual /\ deepEqual deq expected actual).
Proof.
  intros sprintf deq e a msgs D G. unfold Equal, validateEqualArgs. rewrite Fail_good, negb_involutive by auto.
  unfold decides. rewrite <- !isFunction_spec, <- (ObjectsAreEqual_spec deq D).
  destruct (isFunction e), (isFunction a), (ObjectsAreEqual deq e a); cbn; intuition congruence.
Qed.
(** NotEqual passes for the others; of Equal and NotEqual exactly one passes, and none if there is a function. *)
Theorem C86_notequal : forall sprintf deq expected actual msgs, deqBytes deq -> goodMessages msgs ->
  decides (NotEqual sprintf deq expected actual msgs) (~ isFunc expected /\ ~ isFunc actual /\ ~ deepEqual deq expected actual).
Proof.
  intros sprintf deq e a msgs D G. unfold NotEqual, validateEqualArgs. rewrite Fail_good, negb_involutive by auto.
  unfold decides. rewrite <- !isFunction_spec, <- (ObjectsAreEqual_spec deq D).
  destruct (isFunction e), (isFunction a), (ObjectsAreEqual deq e a); cbn; intuition congruence.
Qed.
(** Exactly is Equal: values of different types are never equal for Equal either. *)
Theorem C86_exactly : forall sprintf deq expected actual msgs, deqBytes deq -> deqTyped deq -> goodMessages msgs ->
  Exactly sprintf deq expected actual msgs = Equal sprintf deq expected actual msgs.
Proof.
  intros sprintf deq e a msgs D T G. unfold Exactly. destruct (sameType e a) eqn:S; auto. cbn.
  assert (N : ObjectsAreEqual deq e a = false).
  { apply ObjectsAreEqual_false; auto. intros H. destruct e as [x|], a as [y|]; cbn in *; try contradiction; try discriminate.
    apply T in H. rewrite H, Z.eqb_refl in S. discriminate. }
  unfold Equal. rewrite N. cbn. now destruct (validateEqualArgs e a).
Qed.
(** EqualValues also passes if the expected value converted to the type of the actual one is equal to it; functions are not rejected. *)
Theorem C86_values_partial : forall sprintf deq convertible convert expected actual msgs, deqBytes deq -> goodMessages msgs ->
  decides (EqualValues sprintf deq convertible convert expected actual msgs)
    (deepEqual deq expected actual \/ exists x y, expected = Some x /\ actual = Some y /\ convertible (typeOf x) (typeOf y) = true /\ deq (convert x (typeOf y)) y = true).
Proof.
  intros sprintf deq cv ct e a msgs D G. unfold EqualValues. rewrite Fail_good by auto.
  apply decides_bool with (b := ObjectsAreEqualValues deq cv ct e a); [|destruct (ObjectsAreEqualValues _ _ _ _ _); auto].
  unfold ObjectsAreEqualValues. rewrite <- (ObjectsAreEqual_spec deq D). destruct (ObjectsAreEqual deq e a); [tauto|].
  destruct a as [y|], e as [x|]; (split; [try discriminate|intros [H|(x' & y' & H1 & H2 & H3)]; try discriminate]).
  - intros H. right. exists x, y. destruct (cv (typeOf x) (typeOf y)) eqn:C; [auto|discriminate].
  - injection H1 as <-. injection H2 as <-. destruct H3 as [-> H3]. exact H3.
Qed.
(** EqualValues does not depend on the order of its arguments *)
Definition C86_full : Prop := forall sprintf deq convertible convert expected actual msgs,
  EqualValues sprintf deq convertible convert expected actual msgs = EqualValues sprintf deq convertible convert actual expected msgs.
(** int64 256 and uint8 0 *)
Theorem C86_asymmetric_refuted :
  EqualValues exampleSprintf exampleDeq exampleConvertible exampleConvert (Some (VInt 6 6 256)) (Some (VInt 8 8 0)) [] = Ret 0 true /\
  EqualValues exampleSprintf exampleDeq exampleConvertible exampleConvert (Some (VInt 8 8 0)) (Some (VInt 6 6 256)) [] = Ret 1 false.
Proof. split; reflexivity. Qed.
Theorem C86_full_refuted : ~ C86_full.
Proof. intros F. destruct C86_asymmetric_refuted as [A B]. rewrite F in A. congruence. Qed.
Lemma exampleDeq_bytes : deqBytes exampleDeq.
Proof.
  intros a w. destruct a as [a|], w as [| | | | |b| | | |]; cbn; try (split; [discriminate|intros H; inversion H; fail]); try destruct b as [b|];
    try (split; [discriminate|intros H; inversion H; fail]); try tauto.
  destruct (list_eq_dec Z.eq_dec a b); split; intros; congruence.
Qed.
Lemma exampleDeq_typed : deqTyped exampleDeq.
Proof.
  intros x y. destruct x, y; cbn; try discriminate; try reflexivity; intros H;
    try (apply andb_true_iff in H; destruct H as [H _]; now apply Z.eqb_eq in H); try (destruct b; discriminate).
Qed.
Example C86_example :
  deqBytes exampleDeq /\ deqTyped exampleDeq /\ goodMessages [] /\
  Equal exampleSprintf exampleDeq (Some (VBytes (Some [1; 2]))) (Some (VBytes (Some [1; 2]))) [] = Ret 0 true /\
  Equal exampleSprintf exampleDeq (Some (VBytes None)) (Some (VBytes (Some []))) [] = Ret 1 false /\
  NotEqual exampleSprintf exampleDeq (Some (VInt 6 6 1)) (Some (VInt 8 8 1)) [] = Ret 0 true /\
  Equal exampleSprintf exampleDeq (Some (VOther 60 19 0)) None [] = Ret 1 false /\ NotEqual exampleSprintf exampleDeq (Some (VOther 60 19 0)) None [] = Ret 1 false /\
  EqualValues exampleSprintf exampleDeq exampleConvertible exampleConvert (Some (VInt 6 6 1)) (Some (VInt 8 8 1)) [] = Ret 0 true.
Proof. split; [apply exampleDeq_bytes|]. split; [apply exampleDeq_typed|]. repeat split; constructor. Qed.

(** * C87: Empty, NotEmpty, Len, Zero, NotZero *)
Theorem C87_empty_partial : forall sprintf deq zero memory object b msgs, goodMessages msgs -> emptiness deq zero memory object b ->
  exists n, forall fuel, (n <= fuel)%nat ->
    Empty sprintf deq zero memory fuel object msgs = verdict b /\ NotEmpty sprintf deq zero memory fuel object msgs = verdict (negb b).
Proof.
  intros sprintf deq zero memory o b msgs G E. destruct (isEmpty_complete _ _ _ _ _ E) as [n H]. exists n. intros fuel F.
  unfold Empty, NotEmpty, passOr. rewrite H, Fail_good by auto. destruct b; auto.
Qed.
(** What they say, within any number of calls, is right. *)
Theorem C87_sound : forall sprintf deq zero memory fuel object r msgs, goodMessages msgs ->
  (Empty sprintf deq zero memory fuel object msgs = r -> r = Hang 0 \/ exists b, emptiness deq zero memory object b /\ r = verdict b) /\
  (NotEmpty sprintf deq zero memory fuel object msgs = r -> r = Hang 0 \/ exists b, emptiness deq zero memory object b /\ r = verdict (negb b)).
Proof.
  intros sprintf deq zero memory fuel o r msgs G. unfold Empty, NotEmpty, passOr. rewrite Fail_good by auto.
  destruct (isEmpty deq zero memory fuel o) as [b|] eqn:E; [|auto]. apply isEmpty_sound in E.
  split; intros <-; right; exists b; split; auto; destruct b; auto.
Qed.
(** They never end exactly for pointers without an end: a pointer to itself, for example. *)
Theorem C87_endless : forall sprintf deq zero memory object msgs,
  endless memory object <-> forall fuel, Empty sprintf deq zero memory fuel object msgs = Hang 0.
Proof.
  intros sprintf deq zero memory o msgs. unfold endless. split.
  - intros H fuel. unfold Empty. now rewrite (proj2 (isEmpty_none deq zero memory fuel o) (H fuel)).
  - intros H n. apply (isEmpty_none deq zero). specialize (H n). unfold Empty, passOr, Fail in H.
    destruct (isEmpty _ _ _ n o) as [[]|]; auto; destruct (messageFromMsgAndArgs sprintf msgs); discriminate.
Qed.
Definition C87_full : Prop := forall sprintf deq zero memory object msgs, exists fuel b, Empty sprintf deq zero memory fuel object msgs = verdict b.
Theorem C87_cycle_refuted : forall sprintf deq zero msgs fuel,
  Empty sprintf deq zero (fun _ => Some (VPtr 60 (Some 1))) fuel (Some (VPtr 60 (Some 1))) msgs = Hang 0.
Proof.
  intros. apply C87_endless. intros n. exists (Some (VPtr 60 (Some 1))). induction n; constructor; auto.
Qed.
Theorem C87_full_refuted : ~ C87_full.
Proof.
  intros F. destruct (F exampleSprintf exampleDeq exampleZero (fun _ => Some (VPtr 60 (Some 1))) (Some (VPtr 60 (Some 1))) []) as (fuel & b & E).
  rewrite C87_cycle_refuted in E. destruct b; discriminate.
Qed.
Theorem C87_len : forall sprintf object length msgs, goodMessages msgs ->
  decides (Len sprintf object length msgs) (exists v n, object = Some v /\ hasLen v n /\ length = Z.of_nat n).
Proof.
  intros sprintf o length msgs G. unfold Len. rewrite Fail_good by auto. destruct o as [v|].
  - destruct (getLen (Some v)) as [n|] eqn:L.
    + destruct (Z.of_nat n =? length) eqn:E; [apply Z.eqb_eq in E; left|apply Z.eqb_neq in E; right]; split; auto.
      * exists v, n. split; auto. split; auto. now apply getLen_spec.
      * intros (w & k & H & L' & E'). injection H as <-. apply getLen_spec in L'. congruence.
    + right. split; auto. intros (w & k & H & L' & E'). injection H as <-. apply getLen_spec in L'. congruence.
  - right. split; auto. intros (w & k & H & _). discriminate.
Qed.
Theorem C87_zero : forall sprintf deq zero i msgs, goodMessages msgs ->
  decides (Zero sprintf deq zero i msgs) (forall v, i = Some v -> deq v (zero (typeOf v)) = true) /\
  decides (NotZero sprintf deq zero i msgs) (exists v, i = Some v /\ deq v (zero (typeOf v)) = false).
Proof.
  intros sprintf deq zero i msgs G. unfold Zero, NotZero. rewrite Fail_good by auto. unfold decides. destruct i as [v|].
  - destruct (deq v (zero (typeOf v))) eqn:E; cbn.
    + split; [left; split; auto; congruence|right; split; auto]. intros (w & H & F). congruence.
    + split; [right; split; auto|left; split; eauto]. intros F. specialize (F v eq_refl). congruence.
  - split; [left; split; auto; discriminate|right; split; auto]. intros (w & H & F). congruence.
Qed.
Example C87_example :
  let memory p := if p =? 1 then Some (VPtr 60 (Some 2)) else Some (VSlice 61 (Some [])) in
  emptiness exampleDeq exampleZero memory (Some (VPtr 62 (Some 1))) true /\
  Empty exampleSprintf exampleDeq exampleZero memory 3 (Some (VPtr 62 (Some 1))) [] = Ret 0 true /\
  NotEmpty exampleSprintf exampleDeq exampleZero memory 3 (Some (VPtr 62 (Some 1))) [] = Ret 1 false /\
  NotEmpty exampleSprintf exampleDeq exampleZero memory 1 (Some (VInt 2 2 7)) [] = Ret 0 true /\
  Len exampleSprintf (Some (VStr 24 (bs "ab"))) 2 [] = Ret 0 true /\ Len exampleSprintf (Some (VInt 2 2 7)) 0 [] = Ret 1 false /\
  Zero exampleSprintf exampleDeq exampleZero (Some (VStr 24 [])) [] = Ret 0 true /\ NotZero exampleSprintf exampleDeq exampleZero None [] = Ret 1 false /\
  endless (fun _ => Some (VPtr 60 (Some 1))) (Some (VPtr 60 (Some 1))).
Proof.
  split; [|repeat split].
  - apply emp_ptr. cbn. apply emp_ptr. cbn. apply emp_len with (n := 0%nat); [exact Logic.I|]. apply len_list with (l := []). constructor.
  - intros n. exists (Some (VPtr 60 (Some 1))). induction n; constructor; auto.
Qed.

(** * C88: Contains, NotContains *)
Theorem C88_contains : forall sprintf deq typeName s element msgs, deqBytes deq -> goodMessages msgs ->
  decides (Contains sprintf deq typeName s element msgs) (member deq typeName s element).
Proof.
  intros sprintf deq tn s e msgs D G. unfold Contains. rewrite Fail_good by auto.
  destruct (includeElement deq tn s e) as [ok found] eqn:E. apply includeElement_spec in E; auto. destruct E as [O F].
  destruct ok; cbn.
  - destruct found; [left|right]; split; auto; [now apply F|]. rewrite <- F. discriminate.
  - right. split; auto. intros M. apply member_container, O in M. discriminate.
Qed.
Theorem C88_notcontains_partial : forall sprintf deq typeName s element msgs, deqBytes deq -> goodMessages msgs ->
  decides (NotContains sprintf deq typeName s element msgs) (container s /\ ~ member deq typeName s element).
Proof.
  intros sprintf deq tn s e msgs D G. unfold NotContains. rewrite Fail_good by auto.
  destruct (includeElement deq tn s e) as [ok found] eqn:E. apply includeElement_spec in E; auto. destruct E as [O F].
  destruct ok; cbn.
  - destruct found; [right|left]; split; auto.
    + intros [_ M]. apply M, F. reflexivity.
    + split; [now apply O|]. rewrite <- F. discriminate.
  - right. split; auto. intros [M _]. apply O in M. discriminate.
Qed.
(** A string contains strings only *)
Definition C88_full : Prop := forall sprintf deq typeName ty s element msgs,
  Contains sprintf deq typeName (Some (VStr ty s)) element msgs = Ret 0 true -> exists ty' sub, element = Some (VStr ty' sub).
(** "<int Value>" contains 5; and a channel is a container only when it is empty, of nothing *)
Theorem C88_value_refuted :
  Contains exampleSprintf exampleDeq exampleTypeName (Some (VStr 24 (bs "an <int Value>."))) (Some (VInt 2 2 5)) [] = Ret 0 true /\
  NotContains exampleSprintf exampleDeq exampleTypeName (Some (VStr 24 (bs "5"))) (Some (VInt 2 2 5)) [] = Ret 0 true /\
  NotContains exampleSprintf exampleDeq exampleTypeName (Some (VChan 60 (Some 0%nat))) (Some (VInt 2 2 5)) [] = Ret 0 true /\
  NotContains exampleSprintf exampleDeq exampleTypeName (Some (VChan 60 (Some 1%nat))) (Some (VInt 2 2 5)) [] = Ret 1 false.
Proof. repeat split. Qed.
Theorem C88_full_refuted : ~ C88_full.
Proof. intros F. destruct C88_value_refuted as [A _]. apply F in A. destruct A as (ty & sub & A). discriminate. Qed.
Example C88_example :
  member exampleDeq exampleTypeName (Some (VStr 24 (bs "hello"))) (Some (VStr 24 (bs "ell"))) /\
  member exampleDeq exampleTypeName (Some (VSlice 60 (Some [Some (VInt 2 2 1); Some (VInt 2 2 2)]))) (Some (VInt 2 2 2)) /\
  member exampleDeq exampleTypeName (Some (VMap 61 (Some [(Some (VInt 2 2 1), None)]))) (Some (VInt 2 2 1)) /\
  container (Some (VMap 61 None)) /\ ~ member exampleDeq exampleTypeName (Some (VMap 61 None)) (Some (VInt 2 2 1)) /\
  ~ container (Some (VInt 2 2 1)) /\
  Contains exampleSprintf exampleDeq exampleTypeName (Some (VInt 2 2 1)) (Some (VInt 2 2 1)) [] = Ret 1 false /\
  NotContains exampleSprintf exampleDeq exampleTypeName (Some (VInt 2 2 1)) (Some (VInt 2 2 1)) [] = Ret 1 false.
Proof.
  split. { eapply mem_str; [constructor|]. exists (bs "h"), (bs "o"). reflexivity. }
  split. { eapply mem_list; [constructor|right; left; reflexivity|reflexivity]. }
  split. { eapply mem_map; [left; reflexivity|reflexivity]. }
  split; [constructor|]. split. { intros M. inversion M as [|v l x e E|]; subst. inversion E. }
  split; [|split; reflexivity]. intros M. inversion M as [|v l E| | |]; subst. inversion E.
Qed.

(** * C89: Subset, NotSubset *)
Lemma isList_spec : forall v, isList v = true <-> exists l, elements v l.
Proof.
  intros v. unfold isList. destruct (items v) as [l|] eqn:E.
  - split; auto. intros _. exists l. now apply items_elements.
  - apply items_none in E. split; [discriminate|tauto].
Qed.
Lemma include_list : forall deq tn v l e, deqBytes deq -> elements v l ->
  exists found, includeElement deq tn (Some v) e = (true, found) /\ (found = true <-> exists x, In x l /\ deepEqual deq x e).
Proof.
  intros deq tn v l e D E. exists (anyEqual deq l e). split; [|now apply anyEqual_spec].
  destruct E; reflexivity.
Qed.
Lemma subsetLoop_spec : forall sprintf deq tn whole lw msgs, deqBytes deq -> goodMessages msgs -> elements whole lw -> forall ls,
  decides (subsetLoop sprintf deq tn (Some whole) ls msgs) (forall e, In e ls -> exists x, In x lw /\ deepEqual deq x e).
Proof.
  intros sprintf deq tn whole lw msgs D G W. induction ls as [|e ls IH]; [left; split; auto; intros e []|].
  cbn [subsetLoop]. destruct (include_list deq tn whole lw e D W) as (found & -> & F). rewrite Fail_good by auto. cbn [negb]. destruct found; cbn [negb].
  - destruct IH as [[H ->]|[H ->]]; [left|right]; split; auto.
    + intros e' [<-|I]; auto. now apply F.
    + intros A. apply H. intros e' I. apply A. now right.
  - right. split; auto. intros A. destruct (A e (or_introl eq_refl)) as (x & X). assert (false = true) by (apply F; eauto). discriminate.
Qed.
Lemma notSubsetLoop_spec : forall sprintf deq tn whole lw msgs, deqBytes deq -> goodMessages msgs -> elements whole lw -> forall ls,
  decides (notSubsetLoop sprintf deq tn (Some whole) ls msgs) (exists e, In e ls /\ ~ exists x, In x lw /\ deepEqual deq x e).
Proof.
  intros sprintf deq tn whole lw msgs D G W. induction ls as [|e ls IH]; cbn [notSubsetLoop]; rewrite Fail_good by auto.
  - right. split; auto. intros (e & [] & _).
  - destruct (include_list deq tn whole lw e D W) as (found & -> & F). cbn [negb]. destruct found; cbn [negb].
    + destruct IH as [[(e' & I & H) ->]|[H ->]]; [left|right]; split; auto.
      * exists e'. split; auto. now right.
      * intros (e' & [<-|I] & A); [apply A; now apply F|]. apply H. eauto.
    + left. split; auto. exists e. split; [now left|]. rewrite <- F. discriminate.
Qed.
Lemma recoverFalse_decides : forall r P, decides r P -> decides (recoverFalse r) P.
Proof. intros r P [[H ->]|[H ->]]; [left|right]; auto. Qed.
(** nil is a subset of everything; otherwise both have to be lists, and every element of the subset has to be equal to one of the other. *)
Theorem C89_subset_partial : forall sprintf deq typeName whole subset msgs, deqBytes deq -> goodMessages msgs ->
  Subset sprintf deq typeName whole None msgs = Ret 0 true /\
  (forall w s, whole = Some w -> subset = Some s -> decides (Subset sprintf deq typeName whole subset msgs)
    (exists lw ls, elements w lw /\ elements s ls /\ forall e, In e ls -> exists x, In x lw /\ deepEqual deq x e)).
Proof.
  intros sprintf deq tn whole subset msgs D G. split; auto. intros w s -> ->. unfold Subset. apply recoverFalse_decides. rewrite Fail_good by auto.
  destruct (isList w) eqn:W; cbn [negb].
  2: { right. split; auto. intros (lw & ls & H & _). assert (E : isList w = true) by (apply isList_spec; eauto). congruence. }
  apply isList_spec in W. destruct W as [lw W].
  destruct (items s) as [ls|] eqn:I.
  2: { right. split; auto. apply items_none in I. intros (lw' & ls & _ & H & _). eauto. }
  apply items_elements in I.
  destruct (subsetLoop_spec sprintf deq tn w lw msgs D G W ls) as [[H ->]|[H ->]]; [left|right]; split; auto.
  - exists lw, ls. auto.
  - intros (lw' & ls' & E1 & E2 & A). apply H. now rewrite (elements_fun _ _ _ W E1), (elements_fun _ _ _ I E2).
Qed.
(** nil is never not a subset; otherwise both have to be lists, and one element of the subset must not be equal to any of the other. *)
Theorem C89_notsubset_partial : forall sprintf deq typeName whole subset msgs, deqBytes deq -> goodMessages msgs ->
  NotSubset sprintf deq typeName whole None msgs = Ret 1 false /\
  (forall w s, whole = Some w -> subset = Some s -> decides (NotSubset sprintf deq typeName whole subset msgs)
    (exists lw ls, elements w lw /\ elements s ls /\ exists e, In e ls /\ ~ exists x, In x lw /\ deepEqual deq x e)).
Proof.
  intros sprintf deq tn whole subset msgs D G. split; [now apply Fail_good|]. intros w s -> ->. unfold NotSubset. apply recoverFalse_decides. rewrite Fail_good by auto.
  destruct (isList w) eqn:W; cbn [negb].
  2: { right. split; auto. intros (lw & ls & H & _). assert (E : isList w = true) by (apply isList_spec; eauto). congruence. }
  apply isList_spec in W. destruct W as [lw W].
  destruct (items s) as [ls|] eqn:I.
  2: { right. split; auto. apply items_none in I. intros (lw' & ls & _ & H & _). eauto. }
  apply items_elements in I.
  destruct (notSubsetLoop_spec sprintf deq tn w lw msgs D G W ls) as [[H ->]|[H ->]]; [left|right]; split; auto.
  - exists lw, ls. auto.
  - intros (lw' & ls' & E1 & E2 & A). apply H. now rewrite (elements_fun _ _ _ W E1), (elements_fun _ _ _ I E2).
Qed.
(** A failure is reported *)
Definition C89_full : Prop := forall sprintf deq typeName whole subset msgs,
  (forall n, Subset sprintf deq typeName whole subset msgs = Ret n false -> n = 1%nat) /\
  (forall n, NotSubset sprintf deq typeName whole subset msgs = Ret n false -> n = 1%nat).
(** nil instead of the list: false, and no report; the test passes.  The same for a failure with a first message that is not a string. *)
Theorem C89_silent_refuted : forall sprintf deq typeName subset msgs,
  Subset sprintf deq typeName None (Some subset) msgs = Ret 0 false /\ NotSubset sprintf deq typeName None (Some subset) msgs = Ret 0 false.
Proof. split; reflexivity. Qed.
Theorem C89_silent_message_refuted : forall sprintf deq typeName whole subset msgs lw ls e, deqBytes deq -> ~ goodMessages msgs ->
  elements whole lw -> elements subset ls -> In e ls -> (~ exists x, In x lw /\ deepEqual deq x e) ->
  Subset sprintf deq typeName (Some whole) (Some subset) msgs = Ret 0 false.
Proof.
  intros sprintf deq tn whole subset msgs lw ls e D G W S I N. unfold Subset.
  rewrite (proj2 (isList_spec whole) (ex_intro _ lw W)), (proj2 (items_elements _ _) S). cbn [negb]. clear S.
  induction ls as [|e' ls IH]; [destruct I|]. cbn [subsetLoop].
  destruct (include_list deq tn whole lw e' D W) as (found & -> & F). rewrite Fail_bad by auto. cbn [negb]. destruct found; cbn [negb]; auto.
  destruct I as [->|I]; [exfalso; apply N; now apply F|]. now apply IH.
Qed.
Theorem C89_full_refuted : ~ C89_full.
Proof.
  intros F. destruct (F exampleSprintf exampleDeq exampleTypeName None (Some (VSlice 60 None)) []) as [A _].
  specialize (A 0%nat eq_refl). discriminate.
Qed.
Example C89_example :
  let l := map (fun n => Some (VInt 2 2 n)) in
  Subset exampleSprintf exampleDeq exampleTypeName (Some (VSlice 60 (Some (l [1; 2; 3])))) (Some (VArr 61 (l [3; 1; 1]))) [] = Ret 0 true /\
  Subset exampleSprintf exampleDeq exampleTypeName (Some (VSlice 60 (Some (l [1; 2; 3])))) (Some (VArr 61 (l [3; 4]))) [] = Ret 1 false /\
  NotSubset exampleSprintf exampleDeq exampleTypeName (Some (VSlice 60 (Some (l [1; 2; 3])))) (Some (VArr 61 (l [3; 4]))) [] = Ret 0 true /\
  NotSubset exampleSprintf exampleDeq exampleTypeName (Some (VSlice 60 (Some (l [1; 2; 3])))) (Some (VArr 61 (l [3]))) [] = Ret 1 false /\
  Subset exampleSprintf exampleDeq exampleTypeName (Some (VMap 60 None)) (Some (VArr 61 (l [3]))) [] = Ret 1 false /\
  Subset exampleSprintf exampleDeq exampleTypeName (Some (VSlice 60 None)) (Some (VArr 61 (l [3]))) [None] = Ret 0 false.
Proof. repeat split. Qed.

(** * C90: ElementsMatch *)
(** DeepEqual is symmetric and transitive *)
Definition perDeq (deq : gval -> gval -> bool) : Prop :=
  (forall x y, deq x y = true -> deq y x = true) /\ (forall x y z, deq x y = true -> deq y z = true -> deq x z = true).
Lemma per_deepEqual : forall deq, perDeq deq ->
  (forall x y, deepEqual deq x y -> deepEqual deq y x) /\ (forall x y z, deepEqual deq x y -> deepEqual deq y z -> deepEqual deq x z).
Proof. intros deq [S T]. split; intros [x|] [y|]; cbn; try tauto; try (intros [z|]; cbn; eauto; tauto). auto. Qed.
Lemma isEmpty_list : forall deq zero memory v l fuel, elements v l -> isEmpty deq zero memory (S fuel) (Some v) = Some (match l with [] => true | _ => false end).
Proof. intros deq zero memory v l fuel []; cbn; auto; try (now destruct l0). now destruct b. Qed.
(** Of two lists: one is the other in another order, with equal elements. *)
Theorem C90_lists : forall sprintf deq zero memory fuel a b la lb msgs, deqBytes deq -> perDeq deq -> goodMessages msgs ->
  elements a la -> elements b lb -> (0 < fuel)%nat ->
  decides (ElementsMatch sprintf deq zero memory fuel (Some a) (Some b) msgs) (rearranged (deepEqual deq) la lb).
Proof.
  intros sprintf deq zero memory fuel a b la lb msgs D P G A B F. destruct fuel as [|fuel]; [lia|].
  destruct (per_deepEqual _ P) as [Sy Tr]. clear P.
  assert (R : decides (if negb (List.length la =? List.length lb)%nat then Fail sprintf msgs else matchLoop sprintf deq la (map (fun x => (x, false)) lb) msgs)
    (rearranged (deepEqual deq) la lb)).
  { destruct (List.length la =? List.length lb)%nat eqn:L; cbn [negb].
    - apply Nat.eqb_eq in L. destruct (matchLoop_one sprintf deq la (map (fun x => (x, false)) lb) msgs) as [E|E].
      + left. split; auto. pose proof (matchLoop_sound deq D sprintf la (map (fun x => (x, false)) lb) msgs E) as H. rewrite unmarked_all in H. auto.
      + right. split.
        * intros H. rewrite <- (unmarked_all lb) in H. apply (matchLoop_complete deq D sprintf Sy Tr _ _ msgs) in H. rewrite H, Fail_good in E by auto. discriminate.
        * rewrite E. now apply Fail_good.
    - right. split; [|now apply Fail_good]. intros H. apply rearranged_length in H. apply Nat.eqb_neq in L. auto. }
  unfold ElementsMatch. rewrite (isEmpty_list _ _ _ _ la _ A), (isEmpty_list _ _ _ _ lb _ B), (proj2 (items_elements _ _) A), (proj2 (items_elements _ _) B).
  destruct la as [|x la]; [|exact R]. destruct lb as [|y lb]; [|exact R]. left. split; auto. exists []. split; constructor.
Qed.
(** Without anything about DeepEqual: a pass is right. *)
Theorem C90_sound : forall sprintf deq zero memory fuel a b la lb msgs, deqBytes deq -> elements a la -> elements b lb ->
  ElementsMatch sprintf deq zero memory fuel (Some a) (Some b) msgs = Ret 0 true -> rearranged (deepEqual deq) la lb.
Proof.
  intros sprintf deq zero memory fuel a b la lb msgs D A B H. destruct fuel as [|fuel]; [discriminate|].
  assert (R : (if negb (List.length la =? List.length lb)%nat then Fail sprintf msgs else matchLoop sprintf deq la (map (fun x => (x, false)) lb) msgs) = Ret 0 true ->
    rearranged (deepEqual deq) la lb).
  { destruct (List.length la =? List.length lb)%nat eqn:L; cbn [negb].
    - apply Nat.eqb_eq in L. intros E. pose proof (matchLoop_sound deq D sprintf la (map (fun x => (x, false)) lb) msgs E) as M. rewrite unmarked_all in M. auto.
    - unfold Fail. destruct (messageFromMsgAndArgs sprintf msgs); discriminate. }
  unfold ElementsMatch in H. rewrite (isEmpty_list _ _ _ _ la _ A), (isEmpty_list _ _ _ _ lb _ B), (proj2 (items_elements _ _) A), (proj2 (items_elements _ _) B) in H.
  destruct la as [|x la]; [|now apply R]. destruct lb as [|y lb]; [|now apply R]. exists []. split; constructor.
Qed.
(** Two empty values pass, whatever they are; nil and a value that is not empty panics; what is not a list, beside a value that is not empty, fails. *)
Theorem C90_others_partial : forall sprintf deq zero memory a b ea eb msgs, goodMessages msgs ->
  emptiness deq zero memory a ea -> emptiness deq zero memory b eb -> exists n, forall fuel, (n <= fuel)%nat ->
  (ea = true -> eb = true -> ElementsMatch sprintf deq zero memory fuel a b msgs = Ret 0 true) /\
  (ea && eb = false -> a = None \/ b = None -> ElementsMatch sprintf deq zero memory fuel a b msgs = Pan 0) /\
  (ea && eb = false -> forall x y, a = Some x -> b = Some y -> (~ exists l, elements x l) \/ (~ exists l, elements y l) ->
     ElementsMatch sprintf deq zero memory fuel a b msgs = Ret 1 false).
Proof.
  intros sprintf deq zero memory a b ea eb msgs G A B. destruct (isEmpty_complete _ _ _ _ _ A) as [n HA]. destruct (isEmpty_complete _ _ _ _ _ B) as [k HB].
  exists (n + k)%nat. intros fuel F. unfold ElementsMatch. rewrite HA, HB, Fail_good by (auto; lia). split; [|split].
  - intros -> ->. reflexivity.
  - intros E H. assert (M : match a, b with Some _, Some _ => False | _, _ => True end) by (destruct H; subst; auto; now destruct a).
    destruct a, b; try contradiction; destruct ea, eb; try discriminate; reflexivity.
  - intros E x y -> -> H.
    assert (M : match items x with
      | Some la => match items y with Some lb => if negb (List.length la =? List.length lb)%nat then Ret 1 false else matchLoop sprintf deq la (map (fun x => (x, false)) lb) msgs | None => Ret 1 false end
      | None => Ret 1 false end = Ret 1 false).
    { destruct H as [H|H]; apply items_none in H; rewrite H; auto. now destruct (items x). }
    destruct ea, eb; try discriminate; exact M.
Qed.
(** Only lists match *)
Definition C90_full : Prop := forall sprintf deq zero memory fuel a b msgs, ElementsMatch sprintf deq zero memory fuel (Some a) (Some b) msgs = Ret 0 true ->
  (exists l, elements a l) /\ (exists l, elements b l).
Theorem C90_zero_refuted : ElementsMatch exampleSprintf exampleDeq exampleZero (fun _ => None) 5 (Some (VInt 2 2 0)) (Some (VStr 24 [])) [] = Ret 0 true.
Proof. reflexivity. Qed.
Theorem C90_full_refuted : ~ C90_full.
Proof. intros F. destruct (F _ _ _ _ _ _ _ _ C90_zero_refuted) as [[l H] _]. inversion H. Qed.
Lemma exampleDeq_per : perDeq exampleDeq.
Proof.
  split.
  - intros x y. destruct x, y; cbn; try discriminate; try (destruct b; discriminate); try (destruct b, b0; try discriminate; auto);
      rewrite ?andb_true_iff, ?Z.eqb_eq; try (intros [-> ->]; auto; fail).
    + destruct (list_eq_dec Z.eq_dec s s0); [subst|intros [_ H]; discriminate]. intros [-> _]. split; auto. destruct (list_eq_dec Z.eq_dec s0 s0); congruence.
    + destruct (list_eq_dec Z.eq_dec b b0); [subst|discriminate]. intros _. destruct (list_eq_dec Z.eq_dec b0 b0); congruence.
  - intros x y z. destruct x, y; cbn; try discriminate; try (destruct b; discriminate).
    + rewrite andb_true_iff, !Z.eqb_eq. now intros [-> ->].
    + rewrite andb_true_iff, Z.eqb_eq. intros [-> H]. destruct (list_eq_dec Z.eq_dec s s0); [subst; auto|discriminate].
    + destruct b, b0; try discriminate; auto. destruct (list_eq_dec Z.eq_dec b b0); [subst; auto|discriminate].
Qed.
Example C90_example :
  let l := map (fun n => Some (VInt 2 2 n)) in
  deqBytes exampleDeq /\ perDeq exampleDeq /\ rearranged (deepEqual exampleDeq) (l [1; 2; 1]) (l [2; 1; 1]) /\
  ElementsMatch exampleSprintf exampleDeq exampleZero (fun _ => None) 1 (Some (VSlice 60 (Some (l [1; 2; 1])))) (Some (VArr 61 (l [2; 1; 1]))) [] = Ret 0 true /\
  ElementsMatch exampleSprintf exampleDeq exampleZero (fun _ => None) 1 (Some (VSlice 60 (Some (l [1; 2; 1])))) (Some (VArr 61 (l [2; 2; 1]))) [] = Ret 1 false /\
  ElementsMatch exampleSprintf exampleDeq exampleZero (fun _ => None) 1 None (Some (VArr 61 (l [2]))) [] = Pan 0 /\
  ElementsMatch exampleSprintf exampleDeq exampleZero (fun _ => None) 1 (Some (VInt 2 2 3)) (Some (VArr 61 (l [2]))) [] = Ret 1 false.
Proof.
  split; [apply exampleDeq_bytes|]. split; [apply exampleDeq_per|]. split; [|repeat split].
  exists (map (fun n => Some (VInt 2 2 n)) [1; 2; 1]). split.
  - cbn. apply perm_swap.
  - repeat constructor.
Qed.

(** * C93: Panics, NotPanics, PanicsWithValue *)
(** A function that ends the goroutine ends the test with it. *)
Theorem C93_panics_partial : forall sprintf f msgs, goodMessages msgs -> f <> FExits ->
  decides (Panics sprintf f msgs) (exists v, f = FPanics (Some v)) /\ decides (NotPanics sprintf f msgs) (~ exists v, f = FPanics (Some v)).
Proof.
  intros sprintf f msgs G N. unfold Panics, NotPanics, didPanic. destruct f as [|[v|]|]; [| | |congruence]; cbn; rewrite ?Fail_good by auto; cbn; unfold decides.
  - split; [right|left]; split; auto; intros (w & H); discriminate.
  - split; [left|right]; split; eauto.
  - split; [right|left]; split; auto; intros (w & H); discriminate.
Qed.
Theorem C93_exits : forall sprintf ifaceEq expected msgs,
  Panics sprintf FExits msgs = Exit 0 /\ NotPanics sprintf FExits msgs = Exit 0 /\ PanicsWithValue sprintf ifaceEq expected FExits msgs = Exit 0.
Proof. repeat split. Qed.
(** PanicsWithValue: the value of the panic == the expected one; comparing values that cannot be compared panics. *)
Theorem C93_value : forall sprintf ifaceEq expected f msgs, goodMessages msgs -> f <> FExits ->
  (forall v, f = FPanics (Some v) -> ifaceEq (Some v) expected = None -> PanicsWithValue sprintf ifaceEq expected f msgs = Pan 0) /\
  ((forall v, f = FPanics (Some v) -> ifaceEq (Some v) expected <> None) ->
   decides (PanicsWithValue sprintf ifaceEq expected f msgs) (exists v, f = FPanics (Some v) /\ ifaceEq (Some v) expected = Some true)).
Proof.
  intros sprintf ieq e f msgs G N. unfold PanicsWithValue, didPanic. destruct f as [|[v|]|]; [| | |congruence]; cbn; rewrite ?Fail_good by auto; cbn; unfold decides.
  - split; [intros; discriminate|]. intros _. right. split; auto. intros (w & H & _). discriminate.
  - split.
    + intros w H. injection H as <-. now intros ->.
    + intros H. specialize (H v eq_refl). destruct (ieq (Some v) e) as [[]|] eqn:E; [left|right|congruence]; split; auto.
      * eauto.
      * intros (w & H1 & H2). injection H1 as <-. congruence.
  - split; [intros; discriminate|]. intros _. right. split; auto. intros (w & H & _). discriminate.
Qed.
(** Panics passes for every function that panics *)
Definition C93_full : Prop := forall sprintf v msgs, Panics sprintf (FPanics v) msgs = Ret 0 true.
Theorem C93_nil_refuted : forall sprintf,
  Panics sprintf (FPanics None) [] = Ret 1 false /\ NotPanics sprintf (FPanics None) [] = Ret 0 true /\
  forall ifaceEq, PanicsWithValue sprintf ifaceEq None (FPanics None) [] = Ret 1 false.
Proof. repeat split. Qed.
Theorem C93_full_refuted : ~ C93_full.
Proof. intros F. pose proof (F exampleSprintf None []) as H. discriminate. Qed.
Example C93_example :
  let ieq a b := match a, b with Some (VInt t _ n), Some (VInt t' _ n') => Some ((t =? t') && (n =? n')) | Some (VSlice _ _), Some (VSlice _ _) => None | _, _ => Some false end in
  Panics exampleSprintf (FPanics (Some (VInt 2 2 5))) [] = Ret 0 true /\ NotPanics exampleSprintf FReturns [] = Ret 0 true /\
  PanicsWithValue exampleSprintf ieq (Some (VInt 2 2 5)) (FPanics (Some (VInt 2 2 5))) [] = Ret 0 true /\
  PanicsWithValue exampleSprintf ieq (Some (VInt 2 2 5)) (FPanics (Some (VInt 3 3 5))) [] = Ret 1 false /\
  PanicsWithValue exampleSprintf ieq (Some (VSlice 60 None)) (FPanics (Some (VSlice 60 None))) [] = Pan 0.
Proof. repeat split. Qed.

(** * C94: WithinDuration *)
(** Times are nanoseconds, without a bound; a Duration is an int64.  The difference of two times is cut to one. *)
Theorem C94_within_partial : forall sprintf expected actual delta msgs, goodMessages msgs -> - 2 ^ 63 < delta < 2 ^ 63 - 1 ->
  decides (WithinDuration sprintf expected actual delta msgs) (Z.abs (expected - actual) <= delta).
Proof.
  intros sprintf e a d msgs G H. unfold WithinDuration, timeSub, negInt64. rewrite Fail_good by auto.
  change (2 ^ 63) with 9223372036854775808 in *.
  match goal with |- context [?x =? ?y] => destruct (Z.eqb_spec x y); [lia|] end.
  repeat match goal with |- context [?x <? ?y] => destruct (Z.ltb_spec x y) end; cbn [orb]; ((left; split; [lia|reflexivity]) || (right; split; [lia|reflexivity])).
Qed.
Definition C94_full : Prop := forall sprintf expected actual delta msgs, goodMessages msgs -> - 2 ^ 63 <= delta <= 2 ^ 63 - 1 ->
  decides (WithinDuration sprintf expected actual delta msgs) (Z.abs (expected - actual) <= delta).
(** With the longest and the shortest Duration: it passes depending on the order of the times, however far they are apart. *)
Theorem C94_saturation_refuted : forall sprintf expected actual msgs, goodMessages msgs ->
  decides (WithinDuration sprintf expected actual (2 ^ 63 - 1) msgs) (- 2 ^ 63 < expected - actual) /\
  decides (WithinDuration sprintf expected actual (- 2 ^ 63) msgs) (expected - actual <= - 2 ^ 63).
Proof.
  intros sprintf e a msgs G. unfold WithinDuration, timeSub, negInt64. rewrite Fail_good by auto.
  change (2 ^ 63) with 9223372036854775808 in *.
  split; match goal with |- context [?x =? ?y] => destruct (Z.eqb_spec x y); [|] end; try lia;
    repeat match goal with |- context [?x <? ?y] => destruct (Z.ltb_spec x y) end; cbn [orb];
    ((left; split; [lia|reflexivity]) || (right; split; [lia|reflexivity])).
Qed.
Theorem C94_full_refuted : ~ C94_full.
Proof.
  intros F. destruct (F exampleSprintf (2 ^ 64) 0 (2 ^ 63 - 1) [] gm_none ltac:(lia)) as [[H _]|[_ H]].
  - change (2 ^ 64) with 18446744073709551616 in H. change (2 ^ 63 - 1) with 9223372036854775807 in H. lia.
  - vm_compute in H. discriminate.
Qed.
Example C94_example :
  WithinDuration exampleSprintf 1000 1010 10 [] = Ret 0 true /\ WithinDuration exampleSprintf 1000 1011 10 [] = Ret 1 false /\
  WithinDuration exampleSprintf 1011 1000 10 [] = Ret 1 false /\ WithinDuration exampleSprintf 1000 1000 (-1) [] = Ret 1 false.
Proof. repeat split. Qed.

(** * C95: errors, booleans, conditions *)
Theorem C95_errors : forall sprintf err errString msgs, goodMessages msgs ->
  decides (NoError sprintf err msgs) (err = None) /\ decides (Error_ sprintf err msgs) (err <> None) /\
  decides (EqualError sprintf err errString msgs) (err = Some errString).
Proof.
  intros sprintf err s msgs G. unfold EqualError, NoError, Error_. rewrite Fail_good by auto. unfold decides.
  destruct err as [e|]; cbn.
  - split; [right; split; congruence|]. split; [left; split; congruence|]. destruct (bytesEqual s e) eqn:E; cbn.
    + apply bytesEqual_eq in E. subst. left. auto.
    + right. split; auto. intros H. injection H as ->. rewrite (proj2 (bytesEqual_eq s s)) in E by auto. discriminate.
  - split; [left; auto|]. split; right; split; congruence.
Qed.
Theorem C95_booleans : forall sprintf value msgs, goodMessages msgs ->
  decides (True_ sprintf value msgs) (value = true) /\ decides (False_ sprintf value msgs) (value = false) /\ decides (Condition sprintf value msgs) (value = true).
Proof. intros sprintf [] msgs G; unfold True_, False_, Condition, passOr, decides; rewrite Fail_good by auto; cbn; intuition congruence. Qed.
Example C95_example :
  NoError exampleSprintf None [] = Ret 0 true /\ Error_ exampleSprintf None [] = Ret 1 false /\ EqualError exampleSprintf None (bs "") [] = Ret 1 false /\
  EqualError exampleSprintf (Some (bs "EOF")) (bs "EOF") [] = Ret 0 true /\ True_ exampleSprintf false [Some (VStr 24 (bs "no"))] = Ret 1 false.
Proof. repeat split. Qed.

Print Assumptions C85_lines.
Print Assumptions C85_report_partial.
Print Assumptions C85_whole.
Print Assumptions C85_bad_message.
Print Assumptions C85_cut_refuted.
Print Assumptions C85_full_refuted.
Print Assumptions C86_equal.
Print Assumptions C86_notequal.
Print Assumptions C86_exactly.
Print Assumptions C86_values_partial.
Print Assumptions C86_asymmetric_refuted.
Print Assumptions C86_full_refuted.
Print Assumptions C87_empty_partial.
Print Assumptions C87_sound.
Print Assumptions C87_endless.
Print Assumptions C87_cycle_refuted.
Print Assumptions C87_full_refuted.
Print Assumptions C87_len.
Print Assumptions C87_zero.
Print Assumptions C88_contains.
Print Assumptions C88_notcontains_partial.
Print Assumptions C88_value_refuted.
Print Assumptions C88_full_refuted.
Print Assumptions C89_subset_partial.
Print Assumptions C89_notsubset_partial.
Print Assumptions C89_silent_refuted.
Print Assumptions C89_silent_message_refuted.
Print Assumptions C89_full_refuted.
Print Assumptions C90_lists.
Print Assumptions C90_sound.
Print Assumptions C90_others_partial.
Print Assumptions C90_zero_refuted.
Print Assumptions C90_full_refuted.
Print Assumptions C93_panics_partial.
Print Assumptions C93_exits.
Print Assumptions C93_value.
Print Assumptions C93_nil_refuted.
Print Assumptions C93_full_refuted.
Print Assumptions C94_within_partial.
Print Assumptions C94_saturation_refuted.
Print Assumptions C94_full_refuted.
Print Assumptions C95_errors.
Print Assumptions C95_booleans.
