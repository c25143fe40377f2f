(** Theorems about the printing functions of go-spew. *)
From Verif Require Import Base JsonStrSpec DecimalSpec ParseModel ParseSpec SpewPrintModel SpewPrintSpec SpewPrintProofs.

(** * C123: what the printing functions write *)

(** Every directive of a format without [*] and argument indexes writes what fmt writes for it, with the same flags, width and precision, except v, T and p;
    text between the directives, missing operands and missing verbs are as with fmt *)
Theorem C123_formats : forall itoa V vInt vPrint vExtra fmtS fmtPointer spewV format args, decimal itoa -> plain format -> bytes_ok format ->
  Sprintf itoa V vInt vPrint vExtra fmtS fmtPointer spewV format args =
  doPrintf V (fun _ => None) (meaning V vPrint fmtS fmtPointer spewV) (fun v => bs "*spew.formatState=" ++ spewV false false v) format args.
Proof. intros. now apply Sprintf_means. Qed.
Print Assumptions C123_formats.

(** A format without these verbs and with an operand for no more than its verbs: the same as fmt.Sprintf *)
Theorem C123_partial : forall itoa V vInt vPrint vExtra fmtS fmtPointer spewV format args, decimal itoa -> plain format -> bytes_ok format ->
  Forall (fun verb => ~ In verb [84; 112; 118]) (verbs format) -> (List.length args <= List.length (verbs format))%nat ->
  Sprintf itoa V vInt vPrint vExtra fmtS fmtPointer spewV format args = doPrintf V vInt vPrint vExtra format args.
Proof. intros. now apply Sprintf_same. Qed.
Print Assumptions C123_partial.

(** Said without fmt's parser: a format of texts and directives writes the texts and, for each directive, what it asks for of the next operand; asterisks and
    brackets are allowed in texts *)
Theorem C123_written : forall itoa V vInt vPrint vExtra fmtS fmtPointer spewV ps args, decimal itoa -> Forall piece_ok ps ->
  Sprintf itoa V vInt vPrint vExtra fmtS fmtPointer spewV (flat_map piece_text ps) args =
  pieces_text V (meaning V vPrint fmtS fmtPointer spewV) (fun v => bs "*spew.formatState=" ++ spewV false false v) ps args.
Proof. intros. now apply Sprintf_written. Qed.
Print Assumptions C123_written.
(** ... and so does fmt, as far as it is modelled *)
Theorem C123_fmt : forall V vInt vPrint vExtra ps args, Forall piece_ok ps ->
  doPrintf V vInt vPrint vExtra (flat_map piece_text ps) args = pieces_text V vPrint vExtra ps args.
Proof. intros. unfold doPrintf. apply loop_written; auto. Qed.
Print Assumptions C123_fmt.

(** Print and Println: the texts of the operands with a space between each two *)
Theorem C123_print : forall itoa V vInt vPrint vExtra fmtS fmtPointer spewV args,
  Sprint itoa V vInt vPrint vExtra fmtS fmtPointer spewV args = spaced (map (spewV false false) args) /\
  Sprintln itoa V vInt vPrint vExtra fmtS fmtPointer spewV args = spaced (map (spewV false false) args) ++ [10].
Proof. intros. split; [apply Sprint_means|apply Sprintln_means]. Qed.
Print Assumptions C123_print.

(** Integers and strings *)
Fixpoint decOf (fuel : nat) (n : Z) : bytes :=
  match fuel with O => [48 + n] | S fuel => if n <? 10 then [48 + n] else decOf fuel (n / 10) ++ [48 + n mod 10] end.
Definition dec (n : Z) : bytes := decOf (Z.to_nat n) n.
Lemma value_snoc : forall t a c, digits_value_from a (t ++ [c]) = 10 * digits_value_from a t + (c - 48).
Proof. induction t as [|d t IH]; intros a c; cbn [app digits_value_from]; [reflexivity|apply IH]. Qed.
Lemma decOf_canon : forall fuel n, 0 <= n <= 9 + Z.of_nat fuel -> canon_nat (decOf fuel n) n.
Proof.
  assert (B : forall n, 0 <= n < 10 -> canon_nat [48 + n] n).
  { intros n N. split; [discriminate|]. split; [cbn [forallb]; unfold is_digit; lia|]. split; [unfold digits_value; cbn [digits_value_from]; lia|].
    cbn [hd]. intros H. now rewrite H. }
  induction fuel as [|fuel IH]; intros n N; cbn [decOf]; [apply B; lia|]. destruct (Z.ltb_spec n 10); [apply B; lia|].
  pose proof (Z.div_mod n 10 ltac:(lia)). pose proof (Z.mod_pos_bound n 10 ltac:(lia)).
  destruct (IH (n / 10) ltac:(lia)) as (T & D & E & HD). split; [intros X; apply app_eq_nil in X; tauto|]. split.
  { rewrite forallb_app, D. cbn [forallb]. unfold is_digit. lia. }
  split. { unfold digits_value in *. rewrite value_snoc, E. lia. }
  destruct (decOf fuel (n / 10)) as [|c r]; [congruence|]. cbn [app hd] in *. intros ->. specialize (HD eq_refl). injection HD as ->.
  change (0 = n / 10) in E. lia.
Qed.
Lemma dec_decimal : decimal dec.
Proof. intros n N. apply decOf_canon. lia. Qed.

(** Operands: integers and strings.  What fmt writes for them with d and s, to a width; x stands for all other verbs *)
Inductive val := VInt (n : Z) | VStr (s : bytes).
Definition asInt (v : val) : option Z := match v with VInt n => Some n | VStr _ => None end.
Definition isStr (v : val) : bool := match v with VInt _ => false | VStr _ => true end.
Definition text (v : val) : bytes := match v with VInt n => dec n | VStr s => s end.
Definition pad (st : state) (t : bytes) : bytes :=
  match wid st with
  | None => t
  | Some w => let p := repeat (if zero st then 48 else 32) (Z.to_nat w - List.length t) in if minus st then t ++ p else p ++ t
  end.
Definition print1 (st : state) (verb : Z) (v : val) : bytes := pad st (if (verb =? 120) then bs "0x" ++ text v else text v).
Definition extra1 (v : val) : bytes := (if isStr v then bs "string=" else bs "int=") ++ text v.
Definition spew1 (sharp plus : bool) (v : val) : bytes := (if sharp then if isStr v then bs "(string)" else bs "(int)" else []) ++ text v.
Definition spew := Sprintf dec val asInt print1 extra1 pad (fun st _ => pad st (bs "0xc000010000")) spew1.
Definition fmt := doPrintf val asInt print1 extra1.

Example C123_example : let format := bs "%-6d|%07.3x|%s %d%%, %#v" in plain format /\ bytes_ok format /\ verbs format = [100; 120; 115; 100; 118] /\
  spew format [VInt 42; VInt 31; VStr (bs "s")] = bs "42    |0000x31|s %!d(MISSING)%, %!v(MISSING)" /\
  spew (firstn 14 format) [VInt 42; VInt 31; VStr (bs "s")] = fmt (firstn 14 format) [VInt 42; VInt 31; VStr (bs "s")] /\
  spew (bs "%#5v") [VInt 42] = bs "(int)42".
Proof.
  cbv zeta. split; [split; vm_compute; intuition discriminate|]. split; [apply Forall_forall; vm_compute; intros x; intuition (subst; try split; try discriminate; auto)|].
  vm_compute. auto.
Qed.
Definition pieces1 : list piece := [PText (bs "[*] "); PVerb (mkVerb (bs "-0") (bs "6") None 100); PText (bs "|"); PVerb (mkVerb (bs "0") (bs "7") (Some (bs "3")) 120);
  PVerb (mkVerb [] [] None 37); PVerb (mkVerb (bs "#") [] None 118); PVerb (mkVerb (bs "+") [] (Some []) 115)].
Example C123_written_example : Forall piece_ok pieces1 /\ flat_map piece_text pieces1 = bs "[*] %-06d|%07.3x%%%#v%+.s" /\
  spew (flat_map piece_text pieces1) [VInt 42; VInt 31; VStr (bs "s")] = bs "[*] 42    |0000x31%(string)s%!s(MISSING)" /\
  fmt (flat_map piece_text pieces1) [VInt 42; VInt 31; VStr (bs "s"); VInt 1; VInt 2; VInt 3] = bs "[*] 42    |0000x31%s1%!(EXTRA int=2, int=3)".
Proof.
  split; [|vm_compute; auto]. unfold pieces1.
  repeat (apply Forall_cons; [cbn [piece_ok vflags vwidth vprec vverb]; unfold digits6, is_scalar; vm_compute; repeat split; try lia; try intuition congruence|]).
  apply Forall_nil.
Qed.
Example C123_print_example : Sprint dec val asInt print1 extra1 pad (fun st _ => []) spew1 [VStr (bs "a"); VStr (bs "b"); VInt 3] = bs "a b 3" /\
  Sprintln dec val asInt print1 extra1 pad (fun st _ => []) spew1 [VStr (bs "a"); VInt 3] = bs "a 3" ++ [10].
Proof. vm_compute. auto. Qed.

(** Widths and precisions that are given as operands do not work: the operands are formatters too *)
Theorem C123_star_refuted : spew (bs "%*d") [VInt 5; VInt 3] = bs "%!(BADWIDTH)3" /\ fmt (bs "%*d") [VInt 5; VInt 3] = bs "    3" /\
  spew (bs "%.*d") [VInt 5; VInt 3] = bs "%!(BADPREC)3" /\ fmt (bs "%.*d") [VInt 5; VInt 3] = bs "3".
Proof. vm_compute. auto. Qed.
Print Assumptions C123_star_refuted.
(** The type that is shown is that of the formatter, whatever the operand is *)
Theorem C123_type_refuted : forall itoa V vInt vPrint vExtra fmtS fmtPointer spewV v,
  Sprintf itoa V vInt vPrint vExtra fmtS fmtPointer spewV (bs "%T") [v] = fmtS noFlags (bs "*spew.formatState").
Proof. intros. vm_compute. apply app_nil_r. Qed.
Print Assumptions C123_type_refuted.
(** Also in the message about an operand too many *)
Theorem C123_extra_refuted : spew (bs "x") [VInt 5] = bs "x%!(EXTRA *spew.formatState=5)" /\ fmt (bs "x") [VInt 5] = bs "x%!(EXTRA int=5)".
Proof. vm_compute. auto. Qed.
Print Assumptions C123_extra_refuted.
(** Print puts a space also next to strings *)
Theorem C123_space_refuted : Sprint dec val asInt print1 extra1 pad (fun st _ => []) spew1 [VStr (bs "n="); VInt 3] = bs "n= 3" /\
  doPrint val print1 isStr [VStr (bs "n="); VInt 3] = bs "n=3".
Proof. vm_compute. auto. Qed.
Print Assumptions C123_space_refuted.
Definition C123_full : Prop := forall itoa V vInt vPrint vExtra fmtS fmtPointer spewV format args, decimal itoa -> bytes_ok format -> ~ In 91 format ->
  ~ In 118 (verbs format) -> Sprintf itoa V vInt vPrint vExtra fmtS fmtPointer spewV format args = doPrintf V vInt vPrint vExtra format args.
Theorem C123_full_refuted : ~ C123_full.
Proof.
  intros H. specialize (H dec val asInt print1 extra1 pad (fun st _ => []) spew1 (bs "%*d") [VInt 5; VInt 3] dec_decimal).
  assert (E : Sprintf dec val asInt print1 extra1 pad (fun st _ => []) spew1 (bs "%*d") [VInt 5; VInt 3] = bs "%!(BADWIDTH)3") by (vm_compute; reflexivity).
  assert (F : doPrintf val asInt print1 extra1 (bs "%*d") [VInt 5; VInt 3] = bs "    3") by (vm_compute; reflexivity).
  rewrite E, F in H. discriminate H.
  - repeat constructor; vm_compute; discriminate.
  - vm_compute. intuition discriminate.
  - vm_compute. intuition discriminate.
Qed.
Print Assumptions C123_full_refuted.

(** * C124: formatters in several goroutines *)

(** Calls that do not overlap: each gives the format of its own flags, width, precision and verb, whatever room the array of percentBytes has and whatever
    earlier calls left in it *)
Theorem C124_alone : forall itoa spare cs i st verb, exists b,
  snd (runCalls (fresh spare) (alone (cs ++ [(i, origWrites itoa st verb)]))) i = Some (mkCall b [] (Some (constructOrigFormat itoa st verb))).
Proof. intros itoa spare cs i st verb. apply alone_result. Qed.
Print Assumptions C124_alone.
(** If the array has no room behind the percent sign, calls by any goroutines in any interleaving give their own formats *)
Theorem C124_partial : forall es i c t, snd (runCalls (fresh []) es) i = Some c -> result c = Some t ->
  exists w, hd_error (begun i es) = Some w /\ t = 37 :: List.concat w.
Proof. intros es i c t C R. destruct (fine_run es) as [_ F]. destruct (F i c C) as (w & done & B & _ & _ & X). exists w. split; auto. now apply X. Qed.
Print Assumptions C124_partial.

Definition x5 : state := mkState false true false false false (Some 12) (Some 3).
Example C124_example : let w := origWrites dec x5 120 in let es := [Begin 0 w; Continue 0; Begin 1 [[100]]; Continue 0; Continue 1; Continue 1; Continue 0; Continue 0; Continue 0; Continue 0] in
  constructOrigFormat dec x5 120 = bs "%+12.3x" /\
  (exists c, snd (runCalls (fresh []) es) 0%nat = Some c /\ result c = Some (bs "%+12.3x")) /\ (exists c, snd (runCalls (fresh []) es) 1%nat = Some c /\ result c = Some (bs "%d")) /\
  (exists b, snd (runCalls (fresh (bs "1234567")) (alone [(1%nat, [[100]]); (0%nat, w)])) 0%nat = Some (mkCall b [] (Some (bs "%+12.3x")))).
Proof. cbv zeta. split; [vm_compute; reflexivity|]. repeat split; eexists; [split; vm_compute; reflexivity|split; vm_compute; reflexivity|vm_compute; reflexivity]. Qed.

(** If there is room for one byte (Go's []byte("%") has a capacity of 8 if it is made at run time), one goroutine's operand can be printed with the verb of another *)
Theorem C124_race_refuted : forall s spare x y, exists b,
  snd (runCalls (fresh (s :: spare)) [Begin 0 [[x]]; Begin 1 [[y]]; Continue 0; Continue 1; Continue 0]) 0%nat = Some (mkCall b [] (Some [37; y])).
Proof. apply raced. Qed.
Print Assumptions C124_race_refuted.
Definition C124_full : Prop := forall spare es i c t, snd (runCalls (fresh spare) es) i = Some c -> result c = Some t ->
  exists w, hd_error (begun i es) = Some w /\ t = 37 :: List.concat w.
Theorem C124_full_refuted : ~ C124_full.
Proof.
  intros H. destruct (raced 0 [] 120 100) as [b R]. specialize (H _ _ _ _ (bs "%d") R eq_refl) as (w & B & E). vm_compute in B. injection B as <-.
  vm_compute in E. discriminate.
Qed.
Print Assumptions C124_full_refuted.

(** ** The format for %v *)
(** fmt, given the format of buildDefaultFormat and an operand, prints the operand for %v with the flags of the directive and without its width and
    precision; with that of constructOrigFormat as the directive asks for. *)
Theorem C123_default : forall A asInt printArg extra st a, zero st && minus st = false ->
  doPrintf A asInt printArg extra (buildDefaultFormat st) [a] = printArg (mkState (minus st) (plus st) (sharp st) (space st) (zero st) None None) 118 a.
Proof.
  intros A asInt printArg extra st a Z.
  assert (D : directive (mkState (minus st) (plus st) (sharp st) (space st) (zero st) None None) 118).
  { unfold directive. cbn. unfold is_scalar. repeat split; try lia; exact Z. }
  rewrite <- (handed_on dec dec_decimal A asInt printArg extra _ 118 a D) by discriminate.
  f_equal. destruct st as [[] [] [] [] [] ? ?]; reflexivity.
Qed.
Print Assumptions C123_default.
Example C123_default_example : fmt (buildDefaultFormat (mkState true false true false false (Some 9) (Some 2))) [VInt 5] = bs "5" /\
  buildDefaultFormat (mkState true false true false false (Some 9) (Some 2)) = bs "%-#v".
Proof. vm_compute. auto. Qed.
