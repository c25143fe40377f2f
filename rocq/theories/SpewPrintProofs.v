From Verif Require Import Base JsonStrSpec DecimalSpec ParseModel ParseSpec ParseReadProofs SpewPrintModel SpewPrintSpec.
From Coq Require Import Btauto.

(** * Numbers *)
Lemma digits_ge : forall t m, 0 <= m -> forallb is_digit t = true -> m <= digits_value_from m t.
Proof.
  induction t as [|c t IH]; cbn [digits_value_from forallb]; intros m M D; [lia|]. apply andb_true_iff in D as [Dc D].
  unfold is_digit in Dc. specialize (IH (10 * m + (c - 48)) ltac:(lia) D). lia.
Qed.

Definition starts (P : Z -> bool) (s : bytes) : Prop := match s with [] => False | c :: _ => P c = true end.
Definition lacks (P : Z -> bool) (s : bytes) : Prop := match s with [] => True | c :: _ => P c = false end.
Definition acc (num : option Z) : Z := match num with None => 0 | Some n => n end.

Lemma parsenum_digits : forall t num rest, 0 <= acc num -> forallb is_digit t = true -> digits_value_from (acc num) t <= 10000009 -> lacks digit rest -> t <> [] ->
  parsenum num (t ++ rest) = (Some (digits_value_from (acc num) t), rest).
Proof.
  induction t as [|c t IH]; intros num rest N D L R T; [congruence|]. cbn [digits_value_from forallb app parsenum] in *. apply andb_true_iff in D as [Dc D].
  change (digit c) with (is_digit c). rewrite Dc. fold (acc num).
  assert (G : 10 * acc num + (c - 48) <= digits_value_from (10 * acc num + (c - 48)) t) by (apply digits_ge; auto; unfold is_digit in Dc; lia).
  assert (TL : tooLarge (acc num) = false) by (unfold tooLarge, is_digit in *; lia). rewrite TL.
  replace (acc num * 10 + (c - 48)) with (10 * acc num + (c - 48)) by lia.
  destruct t as [|d t].
  - cbn [app]. cbn [digits_value_from] in *. destruct rest as [|r rest]; cbn [parsenum]; [reflexivity|]. cbn [lacks] in R. now rewrite R.
  - rewrite IH; auto; cbn [acc]; try discriminate. unfold is_digit in Dc; lia.
Qed.

Lemma parsenum_canon : forall t n rest, canon_nat t n -> 0 <= n <= 10000009 -> lacks digit rest -> parsenum None (t ++ rest) = (Some n, rest).
Proof.
  intros t n rest (T & D & E & _) N R. unfold digits_value in E. rewrite parsenum_digits; auto; cbn [acc]; rewrite ?E; auto; lia.
Qed.

Lemma parsenum_result : forall s num n r, parsenum num s = (n, r) -> match num with None => True | Some m => 0 <= m <= 10000009 end ->
  lacks digit r /\ match n with None => num = None \/ r = [] | Some n => 0 <= n <= 10000009 end /\ (forall c, In c r -> In c s) /\
  (num = None -> n = None -> r = s \/ r = []).
Proof.
  induction s as [|c s IH]; cbn [parsenum]; intros num n r E M.
  - injection E as <- <-. cbn. destruct num; repeat split; auto; try lia; discriminate.
  - destruct (digit c) eqn:D.
    + fold (acc num) in E. destruct (tooLarge (acc num)) eqn:TL.
      * injection E as <- <-. cbn. repeat split; auto; contradiction.
      * apply IH in E. 2:{ unfold digit, tooLarge in *. destruct num; cbn [acc] in *; lia. }
        destruct E as (L & B & I & _). split; auto. split; [|split].
        -- destruct n; auto. destruct B; auto; discriminate.
        -- intros x H. right. auto.
        -- intros -> ->. destruct B as [B|B]; [discriminate|auto].
    + injection E as <- <-. cbn [lacks]. repeat split; auto. destruct num; auto.
Qed.

Lemma parsenum_pos : forall s n r, parsenum None s = (Some n, r) -> lacks (fun c => c =? 48) s -> 1 <= n.
Proof.
  assert (G : forall s m n r, parsenum (Some m) s = (Some n, r) -> 1 <= m -> 1 <= n).
  { induction s as [|c s IH]; cbn [parsenum]; intros m n r E M; [injection E as <- _; auto|]. destruct (digit c) eqn:D; [|injection E as <- _; auto].
    destruct (tooLarge m); [discriminate|]. eapply IH; [exact E|]. unfold digit in D. lia. }
  intros s n r E L. destruct s as [|c s]; cbn [parsenum] in E; [discriminate|]. cbn [lacks] in L. destruct (digit c) eqn:D; [|discriminate].
  cbn [tooLarge] in E. change (tooLarge 0) with false in E. cbv iota in E. eapply G; [exact E|]. unfold digit in D. lia.
Qed.

(** * Flags *)
Definition isFlag (c : Z) : bool := (c =? 35) || (c =? 48) || (c =? 43) || (c =? 45) || (c =? 32).
Definition flagsOf (st : state) : state := mkState (minus st) (plus st) (sharp st) (space st) (zero st) None None.

Lemma parseFlags_result : forall s st st' r, parseFlags st s = (st', r) -> zero st && minus st = false ->
  zero st' && minus st' = false /\ lacks isFlag r /\ (forall c, In c r -> In c s) /\ wid st' = wid st /\ prec st' = prec st.
Proof.
  induction s as [|c s IH]; intros st st' r E Z0; cbn [parseFlags] in E.
  - destruct st; injection E as <- <-. cbn in *. auto 6.
  - destruct st as [m p h sp z w pr]. cbn [zero minus wid prec] in *.
    repeat match type of E with (if ?b then _ else _) = _ => destruct b eqn:? end.
    1-5: apply IH in E; cbn [zero minus wid prec] in *; [destruct E as (? & ? & H & ? & ?); repeat split; auto; intros x Hx; right; auto|
         try (destruct z, m; cbn in *; congruence); try now destruct m].
    injection E as <- <-. cbn. unfold isFlag. repeat match goal with H : (_ =? _) = false |- _ => rewrite H end. cbn. auto 6.
Qed.

Lemma parseFlags_stop : forall st rest, lacks isFlag rest -> parseFlags st rest = (st, rest).
Proof.
  intros [m p h sp z w pr] [|c r] L; [reflexivity|]. cbn [lacks parseFlags] in *. unfold isFlag in L.
  repeat (apply orb_false_iff in L as [L ?]). now rewrite L, H, H0, H1, H2.
Qed.

Lemma parseFlags_back : forall st rest, zero st && minus st = false -> lacks isFlag rest ->
  parseFlags noFlags (List.concat (flagWrites st) ++ rest) = (flagsOf st, rest).
Proof.
  intros [m p h sp z w pr] rest Z0 L. cbn [zero minus] in Z0. unfold flagsOf. cbn [minus plus sharp space zero].
  destruct m, p, h, sp, z; try discriminate Z0; cbn; try (apply parseFlags_stop; exact L); exact (parseFlags_stop _ _ L).
Qed.

(** * The format that is handed on *)
(** What a directive can be *)
Definition directive (st : state) (verb : Z) : Prop :=
  zero st && minus st = false /\
  match wid st with None => True | Some w => 1 <= w <= 10000009 end /\
  match prec st with None => True | Some p => 0 <= p <= 10000009 end /\
  is_scalar verb /\ digit verb = false /\
  match prec st with Some _ => True | None => verb <> 46 /\ match wid st with Some _ => True | None => isFlag verb = false /\ verb <> 42 end end.

Lemma utf8_cons : forall u, is_scalar u -> (u < 128 /\ utf8 u = [u]) \/ (exists c r, utf8 u = c :: r /\ 192 <= c).
Proof.
  intros u S. unfold utf8. destruct (Z.ltb_spec u 128); [left; auto|]. right. unfold is_scalar in S.
  destruct (Z.ltb_spec u 2048). { eexists _, _. split; [reflexivity|]. pose proof (Z.div_pos u 64). lia. }
  destruct (Z.ltb_spec u 65536). { eexists _, _. split; [reflexivity|]. pose proof (Z.div_pos u 4096). lia. }
  eexists _, _. split; [reflexivity|]. pose proof (Z.div_pos u 262144). lia.
Qed.

Lemma lacks_verb : forall (P : Z -> bool) u, is_scalar u -> (forall c, 192 <= c -> P c = false) -> P u = false -> lacks P (utf8 u).
Proof.
  intros P u S B F. destruct (utf8_cons u S) as [[_ ->]|(c & r & -> & C)]; cbn; auto.
Qed.

Lemma lacks_app : forall P a b, lacks P a -> a <> [] -> lacks P (a ++ b).
Proof. intros P [|c a] b L N; [congruence|exact L]. Qed.

Lemma canon_head : forall t n, canon_nat t n -> 1 <= n -> exists c r, t = c :: r /\ 49 <= c <= 57.
Proof.
  intros t n (T & D & E & H) N. destruct t as [|c r]; [congruence|]. exists c, r. split; auto. cbn [forallb hd] in *. apply andb_true_iff in D as [D _].
  unfold is_digit in D. assert (c <> 48); [|lia]. intros ->. specialize (H eq_refl). injection H as ->. vm_compute in E. lia.
Qed.

Lemma utf8_nonnil : forall u, utf8 u <> [].
Proof. intros u. unfold utf8. repeat match goal with |- context [if ?b then _ else _] => destruct b end; discriminate. Qed.

Section Back.
  Variable itoa : Z -> bytes.
  Hypothesis ITOA : decimal itoa.
  Variable A : Type.
  Variable asInt : A -> option Z.

  Lemma parsePrec_back : forall m p h sp z w0 pr verb args, is_scalar verb -> digit verb = false ->
    match pr with None => verb <> 46 | Some p => 0 <= p <= 10000009 end ->
    parsePrec A asInt (mkState m p h sp z w0 None) (List.concat (match pr with Some precision => [bs "."; itoa precision] | None => [] end) ++ utf8 verb) args
    = (mkState m p h sp z w0 pr, utf8 verb, args, []).
  Proof.
    intros m p h sp z w0 pr verb args S D P.
    assert (LD : lacks digit (utf8 verb)) by (apply lacks_verb; auto; intros c C; unfold digit; lia).
    destruct pr as [pr|]; cbn [List.concat app].
    - rewrite app_nil_r. change (bs ".") with [46]. cbn [app]. rewrite <- app_assoc || idtac.
      destruct (itoa pr) as [|c r] eqn:E. { destruct (ITOA pr ltac:(lia)) as (N & _). congruence. }
      pose proof (ITOA pr ltac:(lia)) as C. rewrite E in C.
      assert (C42 : is_digit c = true) by (destruct C as (_ & F & _); cbn in F; now apply andb_true_iff in F).
      pose proof (parsenum_canon _ _ (utf8 verb) C P LD) as R. cbn [app] in R |- *. unfold parsePrec. rewrite R.
      assert (c <> 42) by (unfold is_digit in C42; lia).
      destruct c as [|c|c]; try reflexivity. repeat (destruct c as [c|c|]; try reflexivity). congruence.
    - destruct (utf8_cons verb S) as [[_ U]|(c & r & U & C)]; rewrite U; cbn [parsePrec].
      + destruct verb as [|c|c]; try reflexivity. repeat (destruct c as [c|c|]; try reflexivity). congruence.
      + destruct c as [|c|c]; try lia. repeat (destruct c as [c|c|]; try reflexivity). lia.
  Qed.

  Lemma not42 : forall c r st args, c <> 42 -> parseWidth A asInt st (c :: r) args =
    let 'mkState m p h sp z _ pr := st in let '(n, s) := parsenum None (c :: r) in (mkState m p h sp z n pr, s, args, []).
  Proof.
    intros c r [m p h sp z w pr] args N. unfold parseWidth. destruct c as [|c|c]; try reflexivity. repeat (destruct c as [c|c|]; try reflexivity). congruence.
  Qed.

  Lemma parse_back : forall st verb args, directive st verb ->
    exists s1 s2 st1 st2, constructOrigFormat itoa st verb = 37 :: s1 /\ parseFlags noFlags s1 = (flagsOf st, s2) /\
      parseWidth A asInt (flagsOf st) s2 args = (st1, st2, args, []) /\ parsePrec A asInt st1 st2 args = (st, utf8 verb, args, []).
  Proof.
    intros st verb args (Z0 & W & P & S & D & X). unfold constructOrigFormat, origWrites. rewrite concat_app.
    change (bs "%") with [37]. cbn [app].
    set (rest := List.concat (match wid st with Some width => [itoa width] | None => [] end ++ _)).
    assert (LD : lacks digit (utf8 verb)) by (apply lacks_verb; auto; intros c C; unfold digit; lia).
    set (tail := List.concat (match prec st with Some precision => [bs "."; itoa precision] | None => [] end) ++ utf8 verb).
    assert (RE : rest = List.concat (match wid st with Some width => [itoa width] | None => [] end) ++ tail).
    { unfold rest, tail. rewrite !concat_app. cbn [List.concat]. now rewrite app_nil_r. }
    assert (TD : lacks digit tail).
    { unfold tail. destruct (prec st); [reflexivity|exact LD]. }
    assert (TN : tail <> []). { unfold tail. intros T. apply app_eq_nil in T as [_ T]. now apply utf8_nonnil in T. }
    assert (RF : lacks isFlag rest).
    { rewrite RE. destruct (wid st) as [w|]; cbn [List.concat app].
      - rewrite app_nil_r. destruct (canon_head _ _ (ITOA w ltac:(lia)) ltac:(lia)) as (c & r & -> & C). cbn. unfold isFlag. lia.
      - unfold tail. destruct (prec st) as [p|]; [reflexivity|]. cbn [List.concat app]. apply lacks_verb; auto; [intros c C; unfold isFlag; lia|tauto]. }
    eexists _, rest, _, _. split; [reflexivity|]. split; [apply parseFlags_back; auto|]. clearbody rest. subst rest. clear RF.
    assert (WB : parseWidth A asInt (flagsOf st) (List.concat (match wid st with Some width => [itoa width] | None => [] end) ++ tail) args =
      (mkState (minus st) (plus st) (sharp st) (space st) (zero st) (wid st) None, tail, args, [])).
    { destruct (wid st) as [w|]; cbn [List.concat app].
      - rewrite app_nil_r. destruct (canon_head _ _ (ITOA w ltac:(lia)) ltac:(lia)) as (c & r & E & C).
        pose proof (parsenum_canon _ _ tail (ITOA w ltac:(lia)) ltac:(lia) TD) as R. rewrite E in *. cbn [app] in R |- *.
        rewrite not42 by lia. cbn [flagsOf]. unfold flagsOf. now rewrite R.
      - destruct tail as [|c r] eqn:TE; [congruence|]. rewrite not42. 2:{ unfold tail in TE. destruct (prec st) as [p|].
          - cbn in TE. injection TE as <- _. lia.
          - cbn [List.concat app] in TE. destruct (utf8_cons verb S) as [[_ U]|(c' & r' & U & C)]; rewrite U in TE; injection TE as <- _; [tauto|lia]. }
        unfold flagsOf. cbn [parsenum]. cbn [lacks] in TD. now rewrite TD. }
    split; [exact WB|]. destruct st as [m p h sp z w pr]. cbn [minus plus sharp space zero wid prec] in *. unfold tail. apply parsePrec_back; auto.
    destruct pr; tauto.
  Qed.

  (** What the parser of fmt makes of a format is a directive *)
  Lemma parse_directive : forall s st1 s1 st2 s2 t2 st3 s3 t3 args args2 args3 verb w, ~ In 42 s -> bytes_ok s ->
    parseFlags noFlags s = (st1, s1) -> parseWidth A asInt st1 s1 args = (st2, s2, args2, t2) -> parsePrec A asInt st2 s2 args2 = (st3, s3, args3, t3) ->
    s3 <> [] -> DecodeRune s3 = (verb, w) -> directive st3 verb.
  Proof.
    intros s st1 s1 st2 s2 t2 st3 s3 t3 args args2 args3 verb w N42 B E1 E2 E3 NN DR.
    apply parseFlags_result in E1 as (Z1 & L1 & I1 & W1 & P1); [|reflexivity]. cbn in W1, P1.
    assert (N1 : ~ In 42 s1) by auto.
    assert (E2' : exists n, parsenum None s1 = (n, s2) /\ st2 = mkState (minus st1) (plus st1) (sharp st1) (space st1) (zero st1) n (prec st1)).
    { destruct s1 as [|c r].
      - cbn in E2. destruct st1. injection E2 as <- <- _ _. eexists. split; reflexivity.
      - rewrite not42 in E2 by (intros ->; apply N1; now left). destruct st1 as [m p h sp z w0 pr]. destruct (parsenum None (c :: r)) as [n s'] eqn:R.
        injection E2 as <- <- _ _. exists n. split; reflexivity. }
    destruct E2' as (n & R1 & ->). cbn [prec] in *. rewrite P1 in *.
    pose proof (parsenum_result _ _ _ _ R1 Logic.I) as (L2 & B2 & I2 & C2).
    assert (W2 : match n with None => True | Some w => 1 <= w <= 10000009 end).
    { destruct n; auto. split; [|lia]. eapply parsenum_pos; [exact R1|]. destruct s1; auto. cbn in L1 |- *. unfold isFlag in L1. lia. }
    assert (N2 : ~ In 42 s2) by auto.
    assert (F3 : exists pr, st3 = mkState (minus st1) (plus st1) (sharp st1) (space st1) (zero st1) n pr /\ lacks digit s3 /\ (forall c, In c s3 -> In c s2) /\
      match pr with Some p => 0 <= p <= 10000009 | None => s3 = s2 /\ lacks (fun c => c =? 46) s3 end).
    { unfold parsePrec in E3. destruct s2 as [|c r].
      { injection E3 as <- <- _ _. eexists. split; [reflexivity|]. cbn. auto. }
      destruct (Z.eq_dec c 46) as [->|NC].
      - assert (E3' : exists k, parsenum None r = (k, s3) /\ st3 = mkState (minus st1) (plus st1) (sharp st1) (space st1) (zero st1) n (Some (match k with None => 0 | Some n => n end))).
        { destruct r as [|c r].
          - cbn in E3. injection E3 as <- <- _ _. eexists. split; reflexivity.
          - assert (c <> 42) by (intros ->; apply N2; right; now left).
            assert (Q : (let '(n1, s0) := parsenum None (c :: r) in (mkState (minus st1) (plus st1) (sharp st1) (space st1) (zero st1) n (Some match n1 with Some n2 => n2 | None => 0 end), s0, args2, [])) = (st3, s3, args3, t3)).
            { destruct c as [|c|c]; try exact E3. repeat (destruct c as [c|c|]; try exact E3). congruence. }
            destruct (parsenum None (c :: r)) as [k s'] eqn:R. injection Q as <- <- _ _. exists k. split; reflexivity. }
        destruct E3' as (k & R2 & ->). eexists. split; [reflexivity|]. pose proof (parsenum_result _ _ _ _ R2 Logic.I) as (L3 & B3 & I3 & _).
        split; auto. split; [intros x H; right; auto|]. destruct k; lia.
      - assert (Q : (mkState (minus st1) (plus st1) (sharp st1) (space st1) (zero st1) n None, c :: r, args2, @nil Z) = (st3, s3, args3, t3)).
        { destruct c as [|c|c]; try exact E3. repeat (destruct c as [c|c|]; try exact E3). congruence. }
        injection Q as <- <- _ _. eexists. split; [reflexivity|]. cbn [lacks]. repeat split; auto. lia. }
    destruct F3 as (pr & -> & L3 & I3 & B3).
    assert (B3' : bytes_ok s3). { unfold bytes_ok in *. rewrite Forall_forall in *. intros x H. apply B; auto. }
    assert (V : is_scalar verb /\ ((verb < 128 /\ exists r, s3 = verb :: r) \/ 128 <= verb)).
    { destruct (DecodeRune_cases s3 B3' NN) as [D|(u & rest & S & E & D)]; rewrite D in DR; injection DR as <- _.
      - unfold RuneError, is_scalar. lia.
      - split; auto. destruct (Z.ltb_spec u 128); [left|lia]. split; auto. rewrite E. unfold utf8. destruct (Z.ltb_spec u 128); [|lia]. cbn. eauto. }
    destruct V as [S V]. unfold directive. cbn [zero minus wid prec]. split; auto. split; auto. split; [destruct pr; auto|]. split; auto.
    assert (H : forall P, (forall c, 128 <= c -> P c = false) -> lacks P s3 -> P verb = false).
    { intros P PC L. destruct V as [(_ & r & E)|V]; [|auto]. now rewrite E in L. }
    split; [apply H; auto; intros c C; unfold digit; lia|]. destruct pr as [p|]; auto. destruct B3 as [-> L46].
    split. { assert ((verb =? 46) = false); [|lia]. apply (H (fun c => c =? 46)); auto. intros c C. lia. }
    destruct n as [n|]; auto. destruct (C2 eq_refl eq_refl) as [->| ->]; [|congruence]. split.
    - apply H; auto. intros c C. unfold isFlag. lia.
    - destruct V as [(_ & r & E)|V]; [|lia]. intros ->. apply N1. rewrite E. now left.
  Qed.

  Variable printArg : state -> Z -> A -> bytes.
  Variable extra : A -> bytes.
  (** The format that is handed on makes fmt print the operand in the same way *)
  Lemma handed_on : forall st verb a, directive st verb -> verb <> 37 -> doPrintf A asInt printArg extra (constructOrigFormat itoa st verb) [a] = printArg st verb a.
  Proof.
    intros st verb a D N. destruct (parse_back st verb [a] D) as (s1 & s2 & st1 & st2 & E & F & W & P). unfold doPrintf. rewrite E. cbn [List.length formatLoop literal].
    change (37 =? 37) with true. cbv iota. rewrite F, W, P. cbn [app]. destruct (utf8 verb) as [|c r] eqn:U. { exfalso. eapply utf8_nonnil; eauto. }
    pose proof (utf8_decode verb [] ltac:(apply D)) as DR. rewrite app_nil_r, U in DR. rewrite DR. cbv iota.
    destruct (Z.eqb_spec verb 37); [congruence|].
    replace (skipn (Z.to_nat (lenZ (c :: r))) (c :: r)) with (@nil Z).
    2:{ unfold lenZ. rewrite Nat2Z.id. now rewrite skipn_all. }
    cbn [formatLoop literal app extraText]. now rewrite app_nil_r.
  Qed.
End Back.

(** * Formats *)
Lemma parseWidth_plain : forall st s, ~ In 42 s -> exists st' s', (forall A f args, parseWidth A f st s args = (st', s', args, [])) /\ (forall c, In c s' -> In c s).
Proof.
  intros st s N. destruct s as [|c r].
  - destruct st. eexists _, _. split; [intros; reflexivity|auto].
  - destruct (parsenum None (c :: r)) as [n s'] eqn:R. destruct st as [m p h sp z w pr]. exists (mkState m p h sp z n pr), s'. split.
    + intros A f args. rewrite not42 by (intros ->; apply N; now left). now rewrite R.
    + pose proof (parsenum_result _ _ _ _ R Logic.I). tauto.
Qed.

Lemma parsePrec_plain : forall st s, ~ In 42 s -> exists st' s', (forall A f args, parsePrec A f st s args = (st', s', args, [])) /\ (forall c, In c s' -> In c s).
Proof.
  intros st s N. destruct st as [m p h sp z w pr]. destruct s as [|c r]; [eexists _, _; split; [intros; reflexivity|auto]|].
  destruct (Z.eq_dec c 46) as [->|NC].
  - destruct r as [|c r]; [eexists _, _; split; [intros; reflexivity|intros c []]|].
    destruct (parsenum None (c :: r)) as [n s'] eqn:R. exists (mkState m p h sp z w (Some (match n with None => 0 | Some n => n end))), s'. split.
    + intros A f args. unfold parsePrec. rewrite R. assert (c <> 42) by (intros ->; apply N; right; now left).
      destruct c as [|c|c]; try reflexivity. repeat (destruct c as [c|c|]; try reflexivity). congruence.
    + pose proof (parsenum_result _ _ _ _ R Logic.I) as (_ & _ & I & _). intros x H. right. auto.
  - exists (mkState m p h sp z w None), (c :: r). split; auto. intros A f args. unfold parsePrec.
    destruct c as [|c|c]; try reflexivity. repeat (destruct c as [c|c|]; try reflexivity). congruence.
Qed.

Lemma literal_in : forall s lit r, literal s = (lit, r) -> forall c, In c r -> In c s.
Proof.
  induction s as [|d s IH]; cbn [literal]; intros lit r E c H; [injection E as <- <-; auto|]. destruct (d =? 37); [injection E as <- <-; auto|].
  destruct (literal s) as [t r'] eqn:L. injection E as <- <-. right. eauto.
Qed.

Lemma skipn_in : forall (n : nat) (s : bytes) c, In c (skipn n s) -> In c s.
Proof. intros n s c H. rewrite <- (firstn_skipn n s). apply in_or_app. now right. Qed.

Lemma ok_sub : forall a b : bytes, (forall c, In c a -> In c b) -> bytes_ok b -> bytes_ok a.
Proof. unfold bytes_ok. intros a b H B. rewrite Forall_forall in *. auto. Qed.

Lemma loop_same : forall A (f1 f2 : A -> option Z) (p1 p2 : state -> Z -> A -> bytes) (e1 e2 : A -> bytes) (P : Z -> Prop),
  (forall st verb a, directive st verb -> verb <> 37 -> P verb -> p1 st verb a = p2 st verb a) ->
  forall fuel s args, ~ In 42 s -> bytes_ok s -> Forall P (verbsFrom fuel s) -> (forall a, e1 a = e2 a) \/ (List.length args <= List.length (verbsFrom fuel s))%nat ->
  formatLoop A f1 p1 e1 fuel s args = formatLoop A f2 p2 e2 fuel s args.
Proof.
  intros A f1 f2 p1 p2 e1 e2 P PE fuel. induction fuel as [|fuel IH]; intros s args N B F X; [reflexivity|].
  assert (XE : forall args, (forall a, e1 a = e2 a) \/ (List.length args <= 0)%nat -> extraText A e1 args = extraText A e2 args).
  { intros [|a l] [H|H]; auto; [|cbn in H; lia]. cbn [extraText]. rewrite H, (flat_map_ext (fun a => bs ", " ++ e1 a) (fun a => bs ", " ++ e2 a)); [reflexivity|]. intros b. now rewrite H. }
  cbn [formatLoop verbsFrom] in *. destruct (literal s) as [lit s0] eqn:L. cbn [snd] in *. f_equal.
  destruct s0 as [|c0 s0]; [now apply XE|].
  destruct (parseFlags noFlags s0) as [st1 s1] eqn:E1.
  assert (I0 : forall c, In c s0 -> In c s) by (intros c H; eapply literal_in; [exact L|now right]).
  pose proof (parseFlags_result _ _ _ _ E1 eq_refl) as (_ & _ & I1 & _).
  assert (N1 : ~ In 42 s1) by auto. destruct (parseWidth_plain st1 s1 N1) as (st2 & s2 & E2 & I2).
  assert (N2 : ~ In 42 s2) by auto. destruct (parsePrec_plain st2 s2 N2) as (st3 & s3 & E3 & I3).
  rewrite !E2, !E3 in *. cbn [app]. destruct s3 as [|c s3]; [f_equal; now apply XE|].
  destruct (DecodeRune (c :: s3)) as [verb w] eqn:DR.
  assert (I4 : forall x, In x (skipn (Z.to_nat w) (c :: s3)) -> In x s) by (intros x H; apply skipn_in in H; auto).
  assert (N4 : ~ In 42 (skipn (Z.to_nat w) (c :: s3))) by auto. assert (B4 : bytes_ok (skipn (Z.to_nat w) (c :: s3))) by (eapply ok_sub; eauto).
  destruct (Z.eqb_spec verb 37); [f_equal; apply IH; auto|].
  cbn [app] in F, X. inversion F as [|? ? Fv F']; subst.
  destruct args as [|a args].
  - do 3 f_equal. apply IH; auto. right. cbn. lia.
  - f_equal; [|apply IH; auto; destruct X as [X|X]; auto; right; cbn in X; lia].
    apply PE; auto. eapply (parse_directive A f1 s0 _ _ _ _ _ _ _ _ args); eauto; [|discriminate]. eapply ok_sub; [exact I0|exact B].
Qed.

(** * Formats as they are written *)
Lemma digits_bound : forall t a, forallb is_digit t = true -> digits_value_from a t <= (a + 1) * 10 ^ Z.of_nat (List.length t) - 1.
Proof.
  induction t as [|c t IH]; intros a D; cbn [digits_value_from List.length forallb] in *; [lia|]. apply andb_true_iff in D as [Dc D].
  specialize (IH (10 * a + (c - 48)) D). rewrite Nat2Z.inj_succ, Z.pow_succ_r by lia. unfold is_digit in Dc.
  assert (0 < 10 ^ Z.of_nat (List.length t)) by lia. nia.
Qed.
Lemma digits6_small : forall t, digits6 t -> 0 <= digits_value t <= 999999.
Proof.
  intros t [D L]. split; [apply digits_ge; auto; lia|]. unfold digits_value. pose proof (digits_bound t 0 D).
  assert (10 ^ Z.of_nat (List.length t) <= 10 ^ 6) by (apply Z.pow_le_mono_r; lia). change (10 ^ 6) with 1000000 in *. lia.
Qed.
Lemma digits6_parse : forall t rest, digits6 t -> lacks digit rest -> parsenum None (t ++ rest) = (match t with [] => None | t => Some (digits_value t) end, rest).
Proof.
  intros [|c t] rest D R.
  - cbn [app]. destruct rest as [|c rest]; cbn [parsenum]; [reflexivity|]. cbn [lacks] in R. now rewrite R.
  - pose proof (digits6_small _ D). apply (parsenum_digits (c :: t) None); [cbn; lia|apply D|cbn [acc]; unfold digits_value in *; lia|exact R|discriminate].
Qed.
Lemma mem_app : forall c a b, mem c (a ++ b) = mem c a || mem c b.
Proof. intros. unfold mem. apply existsb_app. Qed.
Lemma parseFlags_written : forall fl m p h sp z rest, (forall c, In c fl -> In c (bs "#0+- ")) -> lacks isFlag rest -> z && m = false ->
  parseFlags (mkState m p h sp z None None) (fl ++ rest) =
  (mkState (m || mem 45 fl) (p || mem 43 fl) (h || mem 35 fl) (sp || mem 32 fl) ((z || mem 48 fl) && negb (m || mem 45 fl)) None None, rest).
Proof.
  induction fl as [|c fl IH]; intros m p h sp z rest F R ZM.
  - cbn [app]. rewrite parseFlags_stop by exact R. cbn [mem existsb]. rewrite !orb_false_r. do 2 f_equal. now destruct z, m.
  - assert (F' : forall x, In x fl -> In x (bs "#0+- ")) by (intros; apply F; now right).
    assert (C : In c (bs "#0+- ")) by (apply F; now left). vm_compute in C.
    cbn [app parseFlags]. unfold mem in *. cbn [existsb].
    destruct C as [<-|[<-|[<-|[<-|[<-|[]]]]]]; cbn [Z.eqb Pos.eqb orb]; rewrite IH by (auto; now destruct z, m); f_equal; f_equal;
      generalize (existsb (Z.eqb 45) fl), (existsb (Z.eqb 43) fl), (existsb (Z.eqb 35) fl), (existsb (Z.eqb 32) fl), (existsb (Z.eqb 48) fl); intros; 
      destruct z, m; try discriminate ZM; btauto.
Qed.
Lemma asked_directive : forall d, piece_ok (PVerb d) -> directive (asked_for d) (vverb d).
Proof.
  intros [fl w pr v] (F & W & W0 & P & S & N). cbn [vflags vwidth vprec vverb] in *. unfold directive, asked_for. cbn [zero minus wid prec vflags vwidth vprec vverb].
  split; [now destruct (mem 48 fl), (mem 45 fl)|]. pose proof (digits6_small _ W) as WS. split.
  { destruct w as [|c w]; [exact Logic.I|]. split; [|lia]. cbn [hd] in W0. destruct W as [D _]. cbn [forallb] in D. apply andb_true_iff in D as [Dc D].
    unfold digits_value in *. cbn [digits_value_from]. pose proof (digits_ge w (10 * 0 + (c - 48)) ltac:(unfold is_digit in Dc; lia) D). unfold is_digit in Dc. lia. }
  split. { destruct pr as [t|]; cbn [option_map]; [|exact Logic.I]. pose proof (digits6_small _ P). lia. }
  split; [exact S|]. cbn [In bs] in N. vm_compute in N. unfold digit, isFlag. split; [lia|]. destruct pr; cbn [option_map]; [exact Logic.I|]. split; [lia|].
  destruct w; [|exact Logic.I]. split; lia.
Qed.

Lemma literal_app : forall t s, ~ In 37 t -> literal (t ++ s) = (t ++ fst (literal s), snd (literal s)).
Proof.
  induction t as [|c t IH]; intros s N; cbn [app literal]; [now destruct (literal s)|]. destruct (Z.eqb_spec c 37) as [->|_]; [exfalso; apply N; now left|].
  rewrite IH by (intros H; apply N; now right). reflexivity.
Qed.
Section Written.
  Variable A : Type.
  Variable asInt : A -> option Z.
  Variable printArg : state -> Z -> A -> bytes.
  Variable extra : A -> bytes.
  Lemma extra_written : forall args, extraText A extra args = match args with [] => [] | _ => bs "%!(EXTRA " ++ commas (map extra args) ++ bs ")" end.
  Proof.
    intros [|a args]; [reflexivity|]. cbn [extraText map]. f_equal. rewrite app_assoc. f_equal. revert a. induction args as [|b args IH]; intros a; [cbn; now rewrite app_nil_r|].
    cbn [map flat_map]. change (commas (extra a :: extra b :: map extra args)) with (extra a ++ bs ", " ++ commas (extra b :: map extra args)).
    rewrite <- IH. now rewrite <- app_assoc.
  Qed.
  Lemma verb_written : forall d rest args, piece_ok (PVerb d) -> exists s s1 st1 s2 st2 s3, piece_text (PVerb d) ++ rest = 37 :: s /\
    parseFlags noFlags s = (st1, s1) /\ parseWidth A asInt st1 s1 args = (st2, s2, args, []) /\ parsePrec A asInt st2 s2 args = (asked_for d, s3, args, []) /\
    s3 = utf8 (vverb d) ++ rest.
  Proof.
    intros [fl w pr v] rest args (F & W & W0 & P & S & N). cbn [vflags vwidth vprec vverb] in *.
    assert (ND : forall P : Z -> bool, (forall c, 192 <= c -> P c = false) -> P v = false -> lacks P (utf8 v ++ rest)).
    { intros Q H1 H2. apply lacks_app; [now apply lacks_verb|apply utf8_nonnil]. }
    vm_compute in N.
    assert (VD : lacks digit (utf8 v ++ rest)) by (apply ND; [intros c C; unfold digit; lia|unfold digit; lia]).
    assert (VF : lacks isFlag (utf8 v ++ rest)) by (apply ND; [intros c C; unfold isFlag; lia|unfold isFlag; lia]).
    assert (V42 : lacks (fun c => c =? 42) (utf8 v ++ rest)) by (apply ND; [intros c C; lia|lia]).
    assert (V46 : lacks (fun c => c =? 46) (utf8 v ++ rest)) by (apply ND; [intros c C; lia|lia]).
    set (tail := match pr with None => [] | Some t => bs "." ++ t end ++ utf8 v ++ rest).
    assert (TD : lacks digit tail) by (unfold tail; destruct pr; [reflexivity|exact VD]).
    assert (TF : lacks isFlag tail) by (unfold tail; destruct pr; [reflexivity|exact VF]).
    assert (T42 : lacks (fun c => c =? 42) tail) by (unfold tail; destruct pr; [reflexivity|exact V42]).
    assert (WF : lacks isFlag (w ++ tail)).
    { destruct w as [|c w]; [exact TF|]. cbn [app lacks hd] in *. destruct W as [D _]. cbn [forallb] in D. unfold is_digit, isFlag in *. lia. }
    assert (W42 : lacks (fun c => c =? 42) (w ++ tail)).
    { destruct w as [|c w]; [exact T42|]. cbn [app lacks hd] in *. destruct W as [D _]. cbn [forallb] in D. unfold is_digit in *. lia. }
    eexists (fl ++ w ++ tail), (w ++ tail), _, tail, _, _. split.
    { unfold piece_text, tail. cbn [vflags vwidth vprec vverb]. change (bs "%") with [37]. cbn [app]. now rewrite <- !app_assoc. }
    split. { apply (parseFlags_written fl false false false false false); auto. }
    cbn [orb]. split.
    { unfold parseWidth. pose proof (digits6_parse _ _ W TD) as R. destruct (w ++ tail) as [|c r].
      - rewrite R. reflexivity.
      - cbn [lacks] in W42. destruct c as [|c|c]; try (rewrite R; reflexivity). repeat (destruct c as [c|c|]; try (rewrite R; reflexivity)). discriminate W42. }
    split; [|reflexivity]. unfold asked_for, tail. cbn [vflags vwidth vprec vverb]. destruct pr as [t|].
    - change (bs ".") with [46]. cbn [app option_map]. unfold parsePrec. pose proof (digits6_parse _ _ P VD) as R. rewrite <- ?app_assoc in *.
      assert (X : lacks (fun c => c =? 42) (t ++ utf8 v ++ rest)).
      { destruct t as [|c t]; [exact V42|]. cbn [app lacks] in *. destruct P as [D _]. cbn [forallb] in D. unfold is_digit in *. lia. }
      assert (Q : (match t with [] => None | t => Some (digits_value t) end = Some (digits_value t)) \/ t = []) by (destruct t; auto).
      destruct (t ++ utf8 v ++ rest) as [|c r].
      + rewrite R. destruct Q as [->| ->]; destruct w; reflexivity.
      + cbn [lacks] in X. destruct c as [|c|c]; try (rewrite R; destruct Q as [->| ->]; destruct w; reflexivity).
        repeat (destruct c as [c|c|]; try (rewrite R; destruct Q as [->| ->]; destruct w; reflexivity)). discriminate X.
    - cbn [app option_map]. unfold parsePrec. destruct (utf8 v ++ rest) as [|c r]; [destruct w; reflexivity|]. cbn [lacks] in V46.
      destruct c as [|c|c]; try (destruct w; reflexivity). repeat (destruct c as [c|c|]; try (destruct w; reflexivity)). discriminate V46.
  Qed.
  Lemma loop_written : forall ps args fuel, Forall piece_ok ps -> (List.length (flat_map piece_text ps) < fuel)%nat ->
    formatLoop A asInt printArg extra fuel (flat_map piece_text ps) args = pieces_text A printArg extra ps args.
  Proof.
    induction ps as [|p ps IH]; intros args fuel OK L.
    - destruct fuel; [cbn in L; lia|]. cbn [flat_map formatLoop literal app pieces_text]. apply extra_written.
    - inversion OK as [|? ? O OK']; subst. destruct fuel as [|fuel]; [lia|]. destruct p as [t|d]; cbn [flat_map pieces_text] in *.
      + cbn [piece_text piece_ok] in *. rewrite <- (IH args (S fuel)) by (auto; rewrite app_length in L; lia). cbn [formatLoop].
        rewrite literal_app by exact O. destruct (literal (flat_map piece_text ps)) as [lit s]. cbn [fst snd]. now rewrite <- app_assoc.
      + destruct (verb_written d (flat_map piece_text ps) args O) as (s & s1 & st1 & s2 & st2 & s3 & E & E1 & E2 & E3 & E4).
        assert (LL : (List.length (flat_map piece_text ps) < fuel)%nat).
        { rewrite app_length in L. cbn [piece_text] in L. rewrite app_length in L. cbn [List.length bs] in L. change (List.length (bs "%")) with 1%nat in L. lia. }
        rewrite E. cbn [formatLoop literal]. change (37 =? 37) with true. cbv iota beta. cbn [app]. rewrite E1, E2, E3. cbn [app]. subst s3.
        destruct (utf8 (vverb d) ++ flat_map piece_text ps) as [|c r] eqn:U. { apply app_eq_nil in U as [U _]. now apply utf8_nonnil in U. }
        rewrite <- U, utf8_decode by apply O. unfold lenZ. rewrite Nat2Z.id, skipn_app, skipn_all, Nat.sub_diag. cbn [app skipn].
        destruct (vverb d =? 37); [now rewrite IH|]. destruct args as [|a args]; now rewrite IH.
  Qed.
End Written.

Section Sprintf.
  Variable itoa : Z -> bytes.
  Hypothesis ITOA : decimal itoa.
  Variable V : Type.
  Variable vInt : V -> option Z.
  Variable vPrint : state -> Z -> V -> bytes.
  Variable vExtra : V -> bytes.
  Variable fmtS : state -> bytes -> bytes.
  Variable fmtPointer : state -> V -> bytes.
  Variable spewV : bool -> bool -> V -> bytes.
  Let print := fPrint itoa V vInt vPrint vExtra fmtS fmtPointer spewV.
  Let means := meaning V vPrint fmtS fmtPointer spewV.

  Lemma fPrint_means : forall st verb a, directive st verb -> verb <> 37 -> print st verb a = means st verb a.
  Proof using ITOA.
    intros st verb a D N. unfold print, means, fPrint, meaning, Format.
    destruct (Z.eqb_spec verb 84); [subst; reflexivity|]. destruct (Z.eqb_spec verb 112); [subst; reflexivity|].
    destruct (Z.eqb_spec verb 118); [reflexivity|]. cbn [negb]. now apply handed_on.
  Qed.

  Lemma Sprintf_means : forall format args, plain format -> bytes_ok format ->
    Sprintf itoa V vInt vPrint vExtra fmtS fmtPointer spewV format args =
    doPrintf V (fun _ => None) means (fun v => bs "*spew.formatState=" ++ spewV false false v) format args.
  Proof using ITOA.
    intros format args [N _] B. unfold Sprintf, convertArgs, doPrintf. rewrite map_id. apply (loop_same V _ _ _ _ _ _ (fun _ => True)); auto.
    - intros. now apply fPrint_means.
    - apply Forall_forall. auto.
  Qed.

  Lemma Sprintf_same : forall format args, plain format -> bytes_ok format -> Forall (fun verb => ~ In verb [84; 112; 118]) (verbs format) ->
    (List.length args <= List.length (verbs format))%nat ->
    Sprintf itoa V vInt vPrint vExtra fmtS fmtPointer spewV format args = doPrintf V vInt vPrint vExtra format args.
  Proof using ITOA.
    intros format args [N _] B F L. unfold Sprintf, convertArgs, doPrintf. rewrite map_id.
    apply (loop_same V _ _ _ _ _ _ (fun verb => ~ In verb [84; 112; 118])); auto.
    intros st verb a D N37 NI. transitivity (means st verb a); [now apply fPrint_means|]. unfold means, meaning. cbn [In] in NI.
    destruct (Z.eqb_spec verb 118); [lia|]. destruct (Z.eqb_spec verb 84); [lia|]. destruct (Z.eqb_spec verb 112); [lia|reflexivity].
  Qed.

  Lemma pieces_same : forall (p1 p2 : state -> Z -> V -> bytes) e1 e2 ps args, Forall piece_ok ps -> (forall a, e1 a = e2 a) ->
    (forall st verb a, directive st verb -> verb <> 37 -> p1 st verb a = p2 st verb a) -> pieces_text V p1 e1 ps args = pieces_text V p2 e2 ps args.
  Proof using.
    intros p1 p2 e1 e2 ps args OK X H. revert args. induction OK as [|p ps O OK IH]; intros args; cbn [pieces_text].
    - destruct args; [reflexivity|]. do 3 f_equal. apply map_ext. exact X.
    - destruct p as [t|d]; [now rewrite IH|]. destruct (Z.eqb_spec (vverb d) 37); [now rewrite IH|]. destruct args as [|a args]; [now rewrite IH|].
      rewrite IH, H; auto. now apply asked_directive.
  Qed.
  Lemma Sprintf_written : forall ps args, Forall piece_ok ps ->
    Sprintf itoa V vInt vPrint vExtra fmtS fmtPointer spewV (flat_map piece_text ps) args =
    pieces_text V means (fun v => bs "*spew.formatState=" ++ spewV false false v) ps args.
  Proof using ITOA.
    intros ps args OK. unfold Sprintf, convertArgs, doPrintf. rewrite map_id, loop_written by (auto; lia).
    apply pieces_same; auto. intros. now apply fPrint_means.
  Qed.

  Lemma Sprint_means : forall args, Sprint itoa V vInt vPrint vExtra fmtS fmtPointer spewV args = spaced (map (spewV false false) args).
  Proof using.
    intros args. unfold Sprint, convertArgs. rewrite map_id. destruct args as [|a args]; [reflexivity|]. cbn [doPrint map].
    assert (P : forall v, fPrint itoa V vInt vPrint vExtra fmtS fmtPointer spewV noFlags 118 v = spewV false false v) by reflexivity.
    revert a. induction args as [|b args IH]; intros a.
    - cbn. now rewrite app_nil_r.
    - cbn [map]. change (spaced (?t :: ?u :: ?l)) with (t ++ [32] ++ spaced (u :: l)). specialize (IH b). rewrite <- IH, (P a). reflexivity.
  Qed.

  Lemma Sprintln_means : forall args, Sprintln itoa V vInt vPrint vExtra fmtS fmtPointer spewV args = spaced (map (spewV false false) args) ++ [10].
  Proof using.
    intros args. unfold Sprintln, convertArgs. rewrite map_id. unfold doPrintln. f_equal. destruct args as [|a args]; [reflexivity|]. cbn [map].
    assert (P : forall v, fPrint itoa V vInt vPrint vExtra fmtS fmtPointer spewV noFlags 118 v = spewV false false v) by reflexivity.
    revert a. induction args as [|b args IH]; intros a.
    - cbn. now rewrite app_nil_r.
    - cbn [map]. change (spaced (?t :: ?u :: ?l)) with (t ++ [32] ++ spaced (u :: l)). specialize (IH b). rewrite <- IH, (P a). cbn [flat_map]. now rewrite <- app_assoc.
  Qed.
End Sprintf.

(** * The buffer *)
Lemma overwrite_hd : forall a n t, (1 <= n)%nat -> hd 0 (overwrite (37 :: a) n t) = 37.
Proof. intros a [|n] t N; [lia|reflexivity]. Qed.
Lemma overwrite_length : forall a n t, (n + List.length t <= List.length a)%nat -> List.length (overwrite a n t) = List.length a.
Proof. intros a n t L. unfold overwrite. rewrite !app_length, firstn_length, skipn_length. lia. Qed.
Lemma overwrite_front : forall a n t, (n + List.length t <= List.length a)%nat -> firstn (n + List.length t) (overwrite a n t) = firstn n a ++ t.
Proof.
  intros a n t L. unfold overwrite. rewrite app_assoc, firstn_app.
  replace (n + List.length t - List.length (firstn n a ++ t))%nat with 0%nat by (rewrite app_length, firstn_length; lia).
  cbn [firstn]. rewrite app_nil_r. apply firstn_all2. rewrite app_length, firstn_length. lia.
Qed.

(** One call by itself *)
Definition good (a : bytes) : Prop := exists r, a = 37 :: r.
Definition inside (a : bytes) (b : buffer) : Prop := match b with Shared n => (1 <= n <= List.length a)%nat | Own _ => True end.

Lemma stepCall_write : forall a b t todo r, good a -> inside a b -> exists a' b', stepCall a (mkCall b (t :: todo) r) = (a', mkCall b' todo r) /\
  good a' /\ List.length a' = List.length a /\ inside a' b' /\ contents a' b' = contents a b ++ t.
Proof.
  intros a b t todo0 r [x ->] I. unfold stepCall. cbn [todo buf result]. destruct b as [n|b]; cbn [inside contents] in *.
  - destruct (Nat.leb_spec (n + List.length t) (List.length (37 :: x))).
    + eexists _, _. split; [reflexivity|]. assert (LE := overwrite_length (37 :: x) n t H). split.
      { pose proof (overwrite_hd x n t ltac:(lia)). destruct (overwrite (37 :: x) n t) as [|c y]; cbn in *; [lia|]. subst. now exists y. }
      split; auto. split; [cbn [inside]; lia|]. cbn [contents]. now apply overwrite_front.
    + eexists _, _. split; [reflexivity|]. split; [now exists x|]. split; auto. split; [exact Logic.I|reflexivity].
  - eexists _, _. split; [reflexivity|]. split; [now exists x|]. split; auto.
Qed.

Lemma setCall_same : forall calls i c, setCall calls i c i = Some c.
Proof. intros. unfold setCall. now rewrite Nat.eqb_refl. Qed.

Lemma continues : forall i writes a calls b, good a -> inside a b -> calls i = Some (mkCall b writes None) ->
  exists a' calls', runCalls (a, calls) (repeat (Continue i) (S (List.length writes))) = (a', calls') /\ good a' /\ List.length a' = List.length a /\
    (forall j, j <> i -> calls' j = calls j) /\ (exists b', calls' i = Some (mkCall b' [] (Some (contents a b ++ List.concat writes)))).
Proof.
  intros i writes. induction writes as [|t writes IH]; intros a calls b G I C.
  - cbn. rewrite C. cbn. eexists _, _. split; [reflexivity|]. split; auto. split; auto. split.
    + intros j J. unfold setCall. now rewrite (proj2 (Nat.eqb_neq j i) J).
    + rewrite setCall_same, app_nil_r. eauto.
  - destruct (stepCall_write a b t writes None G I) as (a1 & b1 & E & G1 & L1 & I1 & C1).
    cbn [List.length repeat]. change (runCalls (a, calls) (Continue i :: ?l)) with (runCalls (step (a, calls) (Continue i)) l).
    cbn [runCalls fold_left step]. rewrite C, E. fold (runCalls (a1, setCall calls i (mkCall b1 writes None)) (repeat (Continue i) (S (List.length writes)))).
    destruct (IH a1 (setCall calls i (mkCall b1 writes None)) b1 G1 I1 (setCall_same _ _ _)) as (a' & calls' & R & G' & L' & O' & b' & C').
    exists a', calls'. split; [exact R|]. split; auto. split; [lia|]. split.
    + intros j J. rewrite O' by auto. unfold setCall. now rewrite (proj2 (Nat.eqb_neq j i) J).
    + exists b'. rewrite C', C1. cbn [List.concat]. now rewrite app_assoc.
Qed.

Lemma runCalls_app : forall w a b, runCalls w (a ++ b) = runCalls (runCalls w a) b.
Proof. intros. unfold runCalls. apply fold_left_app. Qed.

Lemma alone_run : forall cs a calls, good a -> exists a' calls', runCalls (a, calls) (alone cs) = (a', calls') /\ good a' /\ List.length a' = List.length a.
Proof.
  induction cs as [|[i w] cs IH]; intros a calls G; [cbn; eauto|]. cbn [alone]. change (Begin i w :: ?l) with ([Begin i w] ++ l). rewrite !runCalls_app.
  cbn [runCalls fold_left step]. fold (runCalls (a, setCall calls i (newCall w)) (repeat (Continue i) (S (List.length w)))).
  destruct (continues i w a (setCall calls i (newCall w)) (Shared 1) G) as (a1 & c1 & R & G1 & L1 & _).
  { destruct G as [r ->]. cbn. lia. } { apply setCall_same. }
  rewrite R. destruct (IH a1 c1 G1) as (a' & c' & R' & G' & L'). exists a', c'. split; auto. split; auto. lia.
Qed.

Lemma alone_app : forall a b, alone (a ++ b) = alone a ++ alone b.
Proof. induction a as [|[i w] a IH]; intros b; [reflexivity|]. cbn [app alone]. rewrite IH. cbn [app]. f_equal. now rewrite app_assoc. Qed.

Lemma alone_result : forall spare cs i writes, exists b, snd (runCalls (fresh spare) (alone (cs ++ [(i, writes)]))) i = Some (mkCall b [] (Some (37 :: List.concat writes))).
Proof.
  intros spare cs i w. rewrite alone_app, runCalls_app.
  destruct (alone_run cs (37 :: spare) (fun _ => None)) as (a & calls & R0 & G & _); [now exists spare|].
  replace (runCalls (fresh spare) (alone cs)) with (a, calls) by (symmetry; exact R0). clear R0.
  cbn [alone]. rewrite app_nil_r. change (Begin i w :: ?l) with ([Begin i w] ++ l). rewrite runCalls_app. cbn [runCalls fold_left step].
  fold (runCalls (a, setCall calls i (newCall w)) (repeat (Continue i) (S (List.length w)))).
  destruct (continues i w a (setCall calls i (newCall w)) (Shared 1) G) as (a1 & c1 & R & G1 & L1 & _ & b & C).
  { destruct G as [r ->]. cbn. lia. } { apply setCall_same. }
  rewrite R. cbn [snd]. exists b. rewrite C. destruct G as [r ->]. reflexivity.
Qed.

(** Without room in the array, calls do not see each other *)
Definition fine (es : list event) (w : world) : Prop :=
  fst w = [37] /\ forall i c, snd w i = Some c -> exists w done, hd_error (begun i es) = Some w /\ w = done ++ todo c /\
    (match buf c with Shared n => n = 1%nat /\ List.concat done = [] | Own b => b = 37 :: List.concat done end) /\
    (forall t, result c = Some t -> t = 37 :: List.concat w /\ todo c = []).

Lemma begun_snoc : forall i es e, begun i (es ++ [e]) = match e with Begin j w => if (j =? i)%nat then w :: begun i es else begun i es | Continue _ => begun i es end.
Proof.
  intros i es e. unfold begun. rewrite flat_map_app, rev_app_distr. cbn [flat_map]. rewrite app_nil_r. destruct e as [j w|j]; [|reflexivity].
  destruct (j =? i)%nat; reflexivity.
Qed.

Lemma fine_step : forall es w e, fine es w -> fine (es ++ [e]) (step w e).
Proof.
  intros es [a calls] e [A F]. cbn [fst snd] in *. subst a. destruct e as [j w|j]; cbn [step].
  - split; auto. cbn [snd]. intros i c C. rewrite begun_snoc. unfold setCall in C. rewrite Nat.eqb_sym in C. destruct (j =? i)%nat.
    + injection C as <-. exists w, []. cbn. repeat split; auto; discriminate.
    + auto.
  - destruct (calls j) as [cj|] eqn:CJ.
    2:{ split; auto. cbn [snd]. intros i c C. rewrite begun_snoc. auto. }
    destruct (F j cj CJ) as (w & done & B & W & U & R).
    assert (H : exists c', stepCall [37] cj = ([37], c') /\ exists done, w = done ++ todo c' /\
      (match buf c' with Shared n => n = 1%nat /\ List.concat done = [] | Own b => b = 37 :: List.concat done end) /\
      (forall t, result c' = Some t -> t = 37 :: List.concat w /\ todo c' = [])).
    { destruct cj as [b td r]. cbn [buf todo result] in *. unfold stepCall. cbn [buf todo result]. destruct td as [|t td].
      - eexists. split; [reflexivity|]. exists done. cbn [buf todo result]. split; auto. split; auto. intros t. destruct r as [t'|].
        + intros E. injection E as <-. auto.
        + intros E. injection E as <-. split; auto. rewrite W, app_nil_r. destruct b as [n|b]; cbn [contents].
          * destruct U as [-> ->]. reflexivity.
          * exact U.
      - assert (RN : r = None) by (destruct r as [t'|]; auto; destruct (R t' eq_refl) as [_ D]; discriminate D). subst r.
        destruct b as [n|b].
        + destruct U as [-> U]. destruct (Nat.leb_spec (1 + List.length t) (List.length [37])).
          * destruct t as [|? ?]; [|cbn in H; lia]. cbn. eexists. split; [reflexivity|]. exists (done ++ [[]]). cbn [buf todo result].
            split; [rewrite W, <- app_assoc; reflexivity|]. split; [|discriminate]. split; auto. rewrite concat_app, U. reflexivity.
          * eexists. split; [reflexivity|]. exists (done ++ [t]). cbn [buf todo result]. split; [rewrite W, <- app_assoc; reflexivity|].
            split; [|discriminate]. rewrite concat_app, U. cbn. now rewrite app_nil_r.
        + eexists. split; [reflexivity|]. exists (done ++ [t]). cbn [buf todo result]. split; [rewrite W, <- app_assoc; reflexivity|].
          split; [|discriminate]. subst b. rewrite concat_app. cbn. now rewrite app_nil_r. }
    destruct H as (c' & E & done' & W' & U' & R'). rewrite E. split; auto. cbn [snd]. intros i c C. rewrite begun_snoc. unfold setCall in C.
    destruct (Nat.eqb_spec i j) as [->|].
    + injection C as <-. exists w, done'. auto.
    + auto.
Qed.

Lemma fine_run : forall es, fine es (runCalls (fresh []) es).
Proof.
  intros es. induction es as [|e es IH] using rev_ind.
  - split; [reflexivity|]. cbn. discriminate.
  - rewrite runCalls_app. cbn [runCalls fold_left]. now apply fine_step.
Qed.

(** With room for the verb, one call can get the verb of another *)
Lemma raced : forall s spare x y, exists b,
  snd (runCalls (fresh (s :: spare)) [Begin 0 [[x]]; Begin 1 [[y]]; Continue 0; Continue 1; Continue 0]) 0%nat = Some (mkCall b [] (Some [37; y])).
Proof. intros s spare x y. cbn. eexists. reflexivity. Qed.
