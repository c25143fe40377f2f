From Verif Require Import Base DecimalSpec JsonStrSpec JsonIntModel ParseModel ParseSpec ParseProofs ParseReadProofs.
Open Scope Z_scope.
Open Scope list_scope.

(** * Signed integers *)
Lemma wrap_id : forall w x, 0 < w -> - 2^(w-1) <= x < 2^(w-1) -> wrap_signed w x = x.
Proof.
  intros w x Hw H. unfold wrap_signed. assert (P : 2^w = 2 * 2^(w-1)) by (rewrite <- Z.pow_succ_r by lia; f_equal; lia).
  assert (0 < 2^(w-1)) by (apply Z.pow_pos_nonneg; lia). cbv zeta.
  destruct (Z_le_gt_dec 0 x).
  - rewrite Z.mod_small by lia. destruct (Z.ltb_spec x (2^(w-1))); lia.
  - replace (x mod 2^w) with (x + 2^w) by (symmetry; apply (mod_eq _ _ (-1)); lia).
    destruct (Z.ltb_spec (x + 2^w) (2^(w-1))); lia.
Qed.

Lemma wrap_mod : forall w x y, x mod 2^w = y mod 2^w -> wrap_signed w x = wrap_signed w y.
Proof. intros w x y H. unfold wrap_signed. now rewrite H. Qed.

Lemma wrap_eqm : forall w x, 0 < w -> wrap_signed w x mod 2^w = x mod 2^w.
Proof.
  intros w x Hw. unfold wrap_signed. assert (0 < 2^w) by (apply Z.pow_pos_nonneg; lia). cbv zeta.
  destruct (_ <? _).
  - apply Z.mod_mod. lia.
  - rewrite <- (Z.mod_mod x (2^w)) at 2 by lia. replace (x mod 2^w - 2^w) with (x mod 2^w + (-1) * 2^w) by lia.
    apply Z.mod_add. lia.
Qed.

Lemma wrap_ops : forall w a b, 0 < w ->
  wrap_signed w (wrap_signed w a + wrap_signed w b) = wrap_signed w (a + b) /\
  wrap_signed w (wrap_signed w a - wrap_signed w b) = wrap_signed w (a - b) /\
  wrap_signed w (wrap_signed w a * wrap_signed w b) = wrap_signed w (a * b).
Proof.
  intros w a b Hw. assert (0 < 2^w) by (apply Z.pow_pos_nonneg; lia).
  repeat split; apply wrap_mod.
  - rewrite Zplus_mod, !wrap_eqm, <- Zplus_mod by lia. reflexivity.
  - rewrite Zminus_mod, !wrap_eqm, <- Zminus_mod by lia. reflexivity.
  - rewrite Zmult_mod, !wrap_eqm, <- Zmult_mod by lia. reflexivity.
Qed.

(** A source as the readers leave it: at the end with the end error recorded, or before the end with none. *)
Definition at_text (s : Source) (rest : bytes) (fin : err) : Prop :=
  clean s /\ compact s /\ remaining s = rest /\ end_error s = fin /\
  (rest = [] /\ s_err s = Some fin \/ rest <> [] /\ s_err s = None).

Lemma head_current : forall s c r, s_current s <> [] -> remaining s = c :: r -> exists cur, s_current s = c :: cur.
Proof.
  intros s c r N R. unfold remaining, chunks in R. cbn [List.concat] in R. destruct (s_current s) as [|c' cur]; [congruence|].
  cbn [app] in R. injection R as -> _. now exists cur.
Qed.

(** Uint64 after the digits have been located, whether or not the end was already seen. *)
Lemma Uint64_after : forall s d rest, clean s -> longest is_num (remaining s) d rest ->
  (s_err s = None \/ remaining s = [] /\ s_err s = Some (end_error s)) -> digits_value d < 2^64 ->
  exists s', Uint64 s = Ok (digits_value d) s' /\ clean s' /\ end_error s' = end_error s /\ (compact s -> compact s') /\
    remaining s' = rest /\
    (rest = [] /\ s_err s' = Some (end_error s) \/ rest <> [] /\ s_err s' = None /\ s_current s' <> []).
Proof.
  intros s d rest Hc Hl He Hv. assert (Hd : Forall digit d) by apply Hl. destruct He as [He|[R He]].
  - destruct (Uint64_spec s d rest Hc He Hl) as (s' & C' & En & K & [(ND & U & R & X)|(D & _)]).
    + exists s'. rewrite U, Z.mod_small by (split; [now apply digits_nonneg|assumption]). auto 10.
    + exfalso. eapply small_no_drop; eauto.
  - destruct Hl as (E & _ & _). rewrite R in E. symmetry in E. apply app_eq_nil in E as [-> ->].
    exists s. unfold Uint64. rewrite (scan_err _ _ _ _ _ _ He). repeat split; auto.
Qed.

(** What Int64 and Int32 have in common; [w] is 64 or 32. *)
Definition IntW (w : Z) (msg : bytes) : M Z :=
  do c <- Peek1;
  if c =? 45 then
    run ConsumeN 1;
    do val <- Uint64;
    if 2^(w-1) <? val then report (ErrMsg msg) 0 else ret (wrap_signed w (- wrap_signed w val))
  else
    do val <- Uint64;
    if 2^(w-1) - 1 <? val then report (ErrMsg msg) 0 else ret (wrap_signed w val).

Lemma Int64_eq : Int64 = IntW 64 (bs "int64: overflow").
Proof. reflexivity. Qed.
Lemma Int32_eq : Int32 = IntW 32 (bs "int32: overflow").
Proof. reflexivity. Qed.

Definition fits (w v : Z) : Prop := - 2^(w-1) <= v < 2^(w-1).

Lemma IntW_spec : forall w msg s neg d rest, (w = 64 \/ w = 32) -> clean s -> s_err s = None -> s_current s <> [] ->
  signed_number (remaining s) neg d rest -> digits_value d < 2^64 ->
  exists s', clean s' /\ end_error s' = end_error s /\ (compact s -> compact s') /\ remaining s' = rest /\
    IntW w msg s = Ok (if (- 2^(w-1) <=? signed_value neg d) && (signed_value neg d <? 2^(w-1)) then signed_value neg d else 0) s' /\
    (rest = [] -> s_err s' = Some (end_error s)) /\
    (rest <> [] -> s_current s' <> [] /\
       s_err s' = if (- 2^(w-1) <=? signed_value neg d) && (signed_value neg d <? 2^(w-1)) then None else Some (ErrMsg msg)).
Proof.
  intros w msg s neg d rest Hw Hc He Hn (E & F & N) Hv.
  assert (Pw : 0 < w) by lia. assert (P2 : 0 < 2^(w-1)) by (apply Z.pow_pos_nonneg; lia).
  pose proof (digits_nonneg d F) as V0.
  destruct (remaining s) as [|c r] eqn:R.
  { exfalso. unfold remaining, chunks in R. cbn [List.concat] in R. apply app_eq_nil in R as [R _]. congruence. }
  destruct (head_current s c r Hn R) as (cur & EC).
  unfold IntW, bind, Peek1. rewrite EC.
  assert (Rep : forall s' b, clean s' -> end_error s' = end_error s -> remaining s' = rest ->
    (rest = [] /\ s_err s' = Some (end_error s) \/ rest <> [] /\ s_err s' = None /\ s_current s' <> []) ->
    let s'' := if b : bool then s' else ReportError (ErrMsg msg) s' in
    clean s'' /\ end_error s'' = end_error s /\ (compact s' -> compact s'') /\ remaining s'' = rest /\
    (rest = [] -> s_err s'' = Some (end_error s)) /\
    (rest <> [] -> s_current s'' <> [] /\ s_err s'' = if b then None else Some (ErrMsg msg))).
  { intros s' b C' En' R' X s''. subst s''. destruct b.
    - split; auto. split; auto. split; auto. split; auto. destruct X as [[X Y]|(X & Y & Z0)]; split; intros; [exact Y|tauto|tauto|split; auto].
    - split; [now apply ReportError_clean|]. split; [now rewrite ReportError_end|].
      split; [intros K p q; rewrite ReportError_chunks; apply K|].
      split; [unfold remaining; now rewrite ReportError_chunks|]. rewrite ReportError_err.
      destruct X as [[X Y]|(X & Y & Z0)]; rewrite Y; split; intros Q; try tauto. split; [|reflexivity].
      unfold ReportError. rewrite Y. exact Z0. }
  destruct neg.
  - cbn [app] in E. injection E as -> ->. replace (45 =? 45) with true by reflexivity.
    destruct (ConsumeN_ok 1 s Hc ltac:(rewrite R; cbn; lia)) as (s1 & E1 & R1 & C1 & En1 & K1 & Er1 & _).
    rewrite E1. rewrite R in R1. cbn [skipn] in R1.
    destruct (Uint64_after s1 d rest C1) as (s2 & U & C2 & En2 & K2 & R2 & X); auto.
    { rewrite R1. split; auto. split; auto. destruct rest; [auto|apply N]. }
    { destruct Er1 as [->|[Z1 ->]]; [auto|]. right. rewrite He, En1. auto. }
    rewrite U. rewrite En1 in En2, X.
    assert (B : (- 2^(w-1) <=? signed_value true d) && (signed_value true d <? 2^(w-1)) = negb (2^(w-1) <? digits_value d)).
    { unfold signed_value. destruct (Z.ltb_spec (2^(w-1)) (digits_value d)); cbn [negb].
      - apply andb_false_iff. left. apply Z.leb_gt. lia.
      - apply andb_true_iff. split; [apply Z.leb_le|apply Z.ltb_lt]; lia. }
    rewrite B. destruct (2^(w-1) <? digits_value d) eqn:L; cbn [negb] in *.
    + destruct (Rep s2 false C2 ltac:(congruence) R2 X) as (A1 & A2 & A3 & A4 & A5 & A6).
      exists (ReportError (ErrMsg msg) s2). unfold report. auto 10.
    + destruct (Rep s2 true C2 ltac:(congruence) R2 X) as (A1 & A2 & A3 & A4 & A5 & A6).
      exists s2. unfold ret. split; auto. split; auto. split; [auto|]. split; [auto|]. split; [|auto]. f_equal.
      apply Z.ltb_ge in L. unfold signed_value. destruct (Z.eq_dec (digits_value d) (2^(w-1))) as [Q|Q].
      * rewrite Q. replace (wrap_signed w (- wrap_signed w (2^(w-1)))) with (wrap_signed w (- 2^(w-1))).
        -- apply wrap_id; lia.
        -- destruct Hw as [-> | ->]; reflexivity.
      * rewrite (wrap_id w (digits_value d)) by lia. apply wrap_id; lia.
  - cbn [app] in E. 
    assert (C45 : (c =? 45) = false).
    { apply Z.eqb_neq. destruct d as [|c' d]; cbn [app] in E.
      - destruct rest as [|c' rest]; [discriminate|]. injection E as -> ->. now apply N.
      - injection E as -> ->. inversion F as [|? ? D _]; subst. unfold is_num in D. lia. }
    rewrite C45. 
    destruct (Uint64_after s d rest Hc) as (s2 & U & C2 & En2 & K2 & R2 & X); auto.
    { rewrite R, E. split; auto. split; auto. destruct rest; [auto|apply N]. }
    rewrite U.
    assert (B : (- 2^(w-1) <=? signed_value false d) && (signed_value false d <? 2^(w-1)) = negb (2^(w-1) - 1 <? digits_value d)).
    { unfold signed_value. destruct (Z.ltb_spec (2^(w-1) - 1) (digits_value d)); cbn [negb].
      - apply andb_false_iff. right. apply Z.ltb_ge. lia.
      - apply andb_true_iff. split; [apply Z.leb_le|apply Z.ltb_lt]; lia. }
    rewrite B. destruct (2^(w-1) - 1 <? digits_value d) eqn:L; cbn [negb] in *.
    + destruct (Rep s2 false C2 ltac:(congruence) R2 X) as (A1 & A2 & A3 & A4 & A5 & A6).
      exists (ReportError (ErrMsg msg) s2). unfold report. auto 10.
    + destruct (Rep s2 true C2 ltac:(congruence) R2 X) as (A1 & A2 & A3 & A4 & A5 & A6).
      exists s2. unfold ret. split; auto. split; auto. split; [auto|]. split; [auto|]. split; [|auto]. f_equal.
      apply Z.ltb_ge in L. unfold signed_value. apply wrap_id; lia.
Qed.

(** * The arithmetic expressions *)

(** Operators and operands in the order of the text. *)
Definition stops (rest : bytes) : Prop := match rest with [] => True | c :: _ => c = 42 \/ c = 43 \/ c = 45 end.

Lemma Int_num : forall s text v rest fin, Num text v -> clean s -> compact s -> s_err s = None ->
  remaining s = text ++ rest -> end_error s = fin -> stops rest ->
  exists s', Int s = Ok v s' /\ at_text s' rest fin.
Proof.
  intros s text v rest fin Hnum Hc Hk He R <- St. destruct Hnum as [neg d Hd F Hv].
  assert (SN : signed_number (remaining s) neg d rest).
  { rewrite R, <- app_assoc. split; auto. split; auto. destruct rest as [|c rest]; auto. cbn in St. unfold is_num. split; [lia|congruence]. }
  assert (N : s_current s <> []).
  { apply compact_current; auto. rewrite R. destruct neg; [discriminate|]. destruct d; [congruence|discriminate]. }
  assert (Hv' : digits_value d < 2^64) by (unfold signed_value in Hv; destruct neg; lia).
  destruct (IntW_spec 64 (bs "int64: overflow") s neg d rest ltac:(auto) Hc He N SN Hv') as (s' & C' & En & K & R' & U & X1 & X2).
  assert (B : (- 2 ^ (64 - 1) <=? signed_value neg d) && (signed_value neg d <? 2 ^ (64 - 1)) = true).
  { apply andb_true_iff. change (64 - 1) with 63. split; [apply Z.leb_le|apply Z.ltb_lt]; lia. }
  rewrite B in *. exists s'. unfold Int. rewrite Int64_eq. split; auto. repeat split; auto.
  destruct rest as [|c rest]; [left; auto|right]. split; [discriminate|]. now apply X2.
Qed.

(** A term is a number and a list of factors; a sum is a term and a list of signed terms. *)
Definition factors (l : list (bytes * Z)) : bytes := List.concat (map (fun p => [42] ++ fst p) l).
Lemma Term_list : forall s v, Term s v -> exists n0 v0 l, Num n0 v0 /\ Forall (fun p => Num (fst p) (snd p)) l /\
  s = n0 ++ factors l /\ v = fold_left (fun a p => a * snd p) l v0.
Proof.
  induction 1 as [s v H|s v s' v' _ (n0 & v0 & l & N & F & -> & ->) H].
  - exists s, v, []. repeat split; auto. cbn. now rewrite app_nil_r.
  - exists n0, v0, (l ++ [(s', v')]). split; auto. split; [apply Forall_app; auto|]. split.
    + unfold factors. rewrite map_app, concat_app. cbn. now rewrite app_nil_r, <- app_assoc.
    + now rewrite fold_left_app.
Qed.
Definition opbyte (o : exprInfix) : Z := match o with Plus => 43 | Minus => 45 | Multiply => 42 end.
Definition opval (o : exprInfix) (a b : Z) : Z := match o with Plus => a + b | Minus => a - b | Multiply => a * b end.
Definition addends (l : list (exprInfix * (bytes * Z))) : bytes := List.concat (map (fun p => [opbyte (fst p)] ++ fst (snd p)) l).
Lemma Sum_list : forall s v, Sum s v -> exists t0 v0 l, Term t0 v0 /\
  Forall (fun p => Term (fst (snd p)) (snd (snd p)) /\ fst p <> Multiply) l /\
  s = t0 ++ addends l /\ v = fold_left (fun a p => opval (fst p) a (snd (snd p))) l v0.
Proof.
  induction 1 as [s v H|s v s' v' _ (t0 & v0 & l & N & F & -> & ->) H|s v s' v' _ (t0 & v0 & l & N & F & -> & ->) H].
  - exists s, v, []. repeat split; auto. cbn. now rewrite app_nil_r.
  - exists t0, v0, (l ++ [(Plus, (s', v'))]). split; auto. split; [apply Forall_app; split; [exact F|constructor; [split; [exact H|discriminate]|constructor]]|]. split.
    + unfold addends. rewrite map_app, concat_app. cbn. now rewrite app_nil_r, <- app_assoc.
    + now rewrite fold_left_app.
  - exists t0, v0, (l ++ [(Minus, (s', v'))]). split; auto. split; [apply Forall_app; split; [exact F|constructor; [split; [exact H|discriminate]|constructor]]|]. split.
    + unfold addends. rewrite map_app, concat_app. cbn. now rewrite app_nil_r, <- app_assoc.
    + now rewrite fold_left_app.
Qed.

Lemma stops_factors : forall l rest, stops rest -> stops (factors l ++ rest).
Proof. intros [|[t v] l] rest H; cbn; auto. Qed.
Lemma stops_addends : forall l, stops (addends l).
Proof. intros [|[[] [t v]] l]; cbn; auto. Qed.
Lemma num_nonempty : forall t v, Num t v -> t <> [].
Proof. intros t v [[] d N _ _]; [discriminate|]. destruct d; [congruence|discriminate]. Qed.
Lemma term_nonempty : forall t v, Term t v -> t <> [].
Proof.
  intros t v H. destruct (Term_list _ _ H) as (n0 & v0 & l & N & _ & -> & _). apply num_nonempty in N.
  intros E. apply app_eq_nil in E as [E _]. congruence.
Qed.

(** Reading the operator and dropping it. *)
Lemma infix_step : forall s c text fin, at_text s (c :: text) fin -> text <> [] ->
  exprInfixToken s = Ok (if c =? 43 then (Some Plus, 3) else if c =? 45 then (Some Minus, 3)
       else if c =? 42 then (Some Multiply, 4) else (None, 0)) s /\
  exists s', ConsumeN 1 s = Ok tt s' /\ clean s' /\ compact s' /\ s_err s' = None /\ remaining s' = text /\ end_error s' = fin.
Proof.
  intros s c text fin (Hc & Hk & R & En & X) N.
  assert (He : s_err s = None) by (destruct X as [[X _]|[_ X]]; congruence).
  destruct (head_current s c text) as (cur & EC); auto.
  { apply compact_current; auto. rewrite R. discriminate. }
  split. { unfold exprInfixToken, bind, Peek1. now rewrite EC. }
  destruct (ConsumeN_ok 1 s Hc ltac:(rewrite R; cbn; lia)) as (s' & E1 & R1 & C1 & En1 & K1 & Er1 & _).
  rewrite R in R1. cbn [skipn] in R1. exists s'. repeat split; auto; [|congruence].
  destruct Er1 as [->|[Z1 _]]; [auto|congruence].
Qed.

Lemma infix_peek : forall s c text fin, at_text s (c :: text) fin ->
  exprInfixToken s = Ok (if c =? 43 then (Some Plus, 3) else if c =? 45 then (Some Minus, 3)
       else if c =? 42 then (Some Multiply, 4) else (None, 0)) s.
Proof.
  intros s c text fin (Hc & Hk & R & En & X).
  destruct (head_current s c text) as (cur & EC); auto.
  { apply compact_current; auto. rewrite R. discriminate. }
  unfold exprInfixToken, bind, Peek1. now rewrite EC.
Qed.

Notation loop := (parseLoop Z exprInfix exprInfixToken exprInfixParse).

(** The loop stops at the end of the text or at an operator that does not bind tighter. *)
Lemma loop_stop : forall rec fuel p lft s rest fin, at_text s rest fin -> stops rest ->
  match rest with [] => True | c :: _ => (c = 42 -> 4 <= p) /\ (c <> 42 -> 3 <= p) end ->
  loop rec (S fuel) p lft s = Ok lft s.
Proof.
  intros rec fuel p lft s rest fin H St Hp. cbn [parseLoop]. destruct rest as [|c rest].
  - destruct H as (_ & _ & _ & _ & [[_ ->]|[X _]]); [reflexivity|congruence].
  - pose proof (infix_peek _ _ _ _ H) as E. destruct H as (_ & _ & _ & _ & [[X _]|[_ ->]]); [congruence|].
    unfold bind. rewrite E. cbn in St. destruct St as [-> | [-> | ->]]; cbn -[Z.leb];
      match goal with |- context[?a <=? p] => destruct (Z.leb_spec a p) end; auto; exfalso; destruct Hp as [P1 P2];
      (specialize (P1 ltac:(lia)) || specialize (P2 ltac:(lia))); lia.
Qed.

Notation parse := exprParse.

(** A number, as the operand of *. *)
Lemma parse4 : forall text v, Num text v -> forall s rest fin fuel, (2 <= fuel)%nat ->
  clean s -> compact s -> s_err s = None -> remaining s = text ++ rest -> end_error s = fin -> stops rest ->
  exists s', parse fuel 4 s = Ok (Some v) s' /\ at_text s' rest fin.
Proof.
  intros text v Hn s rest fin fuel Hf Hc Hk He R En St.
  destruct fuel as [|[|fuel]]; [lia|lia|].
  destruct (Int_num s text v rest fin Hn Hc Hk He R En St) as (s' & E & A).
  exists s'. split; auto. unfold exprParse. cbn [Parse]. unfold bind at 1. unfold exprPrefixToken, ret. unfold bind at 1.
  unfold exprPrefixParse, bind. rewrite E. unfold ret. eapply loop_stop; eauto. destruct rest; auto. lia.
Qed.

Lemma loop_factors : forall l, Forall (fun p => Num (fst p) (snd p)) l -> forall rec s rest fin v fuel,
  (forall text v s rest, Num text v -> clean s -> compact s -> s_err s = None -> remaining s = text ++ rest -> end_error s = fin -> stops rest ->
     exists s', rec 4 s = Ok (Some v) s' /\ at_text s' rest fin) ->
  (List.length l < fuel)%nat -> at_text s (factors l ++ rest) fin ->
  match rest with [] => True | c :: _ => c = 43 \/ c = 45 end ->
  exists s', loop rec fuel 3 (Some (wrap_signed 64 v)) s = Ok (Some (wrap_signed 64 (fold_left (fun a p => a * snd p) l v))) s' /\ at_text s' rest fin.
Proof.
  induction 1 as [|[t x] l Hn Hl IH]; intros rec s rest fin v fuel Hrec Hf A St.
  - exists s. split; auto. destruct fuel as [|fuel]; [cbn in Hf; lia|]. eapply loop_stop; eauto; destruct rest; cbn; auto; lia.
  - destruct fuel as [|fuel]; [cbn in Hf; lia|]. cbn [fst snd] in *.
    assert (EF : factors ((t, x) :: l) ++ rest = 42 :: (t ++ factors l ++ rest)) by (unfold factors; cbn; now rewrite <- app_assoc).
    rewrite EF in A. destruct (infix_step _ _ _ _ A) as (E1 & s1 & E2 & C1 & K1 & Er1 & R1 & En1).
    { intros Q. apply app_eq_nil in Q as [Q _]. apply num_nonempty in Hn. congruence. }
    assert (He : s_err s = None) by (destruct A as (_ & _ & _ & _ & [[X _]|[_ X]]); congruence).
    destruct (Hrec t x s1 (factors l ++ rest) Hn C1 K1 Er1 R1 En1) as (s2 & E3 & A2).
    { apply stops_factors. destruct rest; cbn; auto; tauto. }
    destruct (IH rec s2 rest fin (v * x) fuel Hrec ltac:(cbn in Hf; lia) A2 St) as (s3 & E4 & A3).
    exists s3. split; auto. cbn [parseLoop]. rewrite He. unfold bind at 1. rewrite E1. cbn [fst snd Z.eqb Pos.eqb Z.leb Z.compare Pos.compare Pos.compare_cont].
    unfold bind at 1. unfold exprInfixParse, asInt. unfold bind at 1. unfold bind at 1. rewrite E2. unfold bind at 1. rewrite E3. unfold bind, ret.
    assert (Nx : wrap_signed 64 x = x).
    { destruct Hn as [neg d _ _ Hv]. now apply wrap_id. }
    destruct (wrap_ops 64 v x ltac:(lia)) as (_ & _ & W). rewrite Nx in W. rewrite W. exact E4.
Qed.

Lemma parse3 : forall text v, Term text v -> exists m, forall s rest fin fuel, (m <= fuel)%nat ->
  clean s -> compact s -> s_err s = None -> remaining s = text ++ rest -> end_error s = fin ->
  match rest with [] => True | c :: _ => c = 43 \/ c = 45 end ->
  exists s', parse fuel 3 s = Ok (Some (wrap_signed 64 v)) s' /\ at_text s' rest fin.
Proof.
  intros text v Ht. destruct (Term_list _ _ Ht) as (n0 & v0 & l & N & F & -> & ->).
  exists (List.length l + 3)%nat. intros s rest fin fuel Hf Hc Hk He R En St.
  assert (St' : stops rest) by (destruct rest; cbn; auto; tauto).
  destruct fuel as [|fuel]; [lia|].
  rewrite <- app_assoc in R.
  destruct (Int_num s n0 v0 (factors l ++ rest) fin N Hc Hk He R En (stops_factors _ _ St')) as (s1 & E & A).
  destruct (loop_factors l F (parse fuel) s1 rest fin v0 fuel) as (s2 & E2 & A2); auto; [|lia|].
  { intros text v s' rest' Hn C K Er R' En' S'. eapply parse4; eauto. lia. }
  exists s2. split; auto. unfold exprParse. cbn [Parse]. unfold bind at 1. unfold exprPrefixToken, ret. unfold bind at 1.
  unfold exprPrefixParse, bind. rewrite E. unfold ret. rewrite <- E2. f_equal. f_equal.
  symmetry. destruct N as [neg d _ _ Hv]. now apply wrap_id.
Qed.

Lemma loop_addends : forall l, Forall (fun p => Term (fst (snd p)) (snd (snd p)) /\ fst p <> Multiply) l -> forall m, exists k, forall rec s fin v fuel,
  (forall text v s rest, In (text, v) (map snd l) -> clean s -> compact s -> s_err s = None -> remaining s = text ++ rest -> end_error s = fin ->
     match rest with [] => True | c :: _ => c = 43 \/ c = 45 end ->
     exists s', rec 3 s = Ok (Some (wrap_signed 64 v)) s' /\ at_text s' rest fin) ->
  (k + m <= fuel)%nat -> at_text s (addends l) fin ->
  exists s', loop rec fuel 0 (Some (wrap_signed 64 v)) s
     = Ok (Some (wrap_signed 64 (fold_left (fun a p => opval (fst p) a (snd (snd p))) l v))) s' /\ at_text s' [] fin.
Proof.
  induction 1 as [|[o [t x]] l [Ht Ho] Hl IH]; intros m.
  - exists 1%nat. intros rec s fin v fuel _ Hf A. exists s. split; auto. destruct fuel as [|fuel]; [lia|]. eapply loop_stop; eauto; exact I.
  - destruct (IH m) as (k & IH'). exists (S k). intros rec s fin v fuel Hrec Hf A. destruct fuel as [|fuel]; [lia|]. cbn [fst snd] in *.
    assert (EF : addends ((o, (t, x)) :: l) = opbyte o :: (t ++ addends l)) by (unfold addends; cbn; reflexivity).
    rewrite EF in A. destruct (infix_step _ _ _ _ A) as (E1 & s1 & E2 & C1 & K1 & Er1 & R1 & En1).
    { intros Q. apply app_eq_nil in Q as [Q _]. apply term_nonempty in Ht. congruence. }
    assert (He : s_err s = None) by (destruct A as (_ & _ & _ & _ & [[X _]|[_ X]]); congruence).
    destruct (Hrec t x s1 (addends l) ltac:(cbn; auto) C1 K1 Er1 R1 En1) as (s2 & E3 & A2).
    { destruct l as [|[[] [t' x']] l']; cbn; auto. inversion Hl as [|? ? [_ Q] _]; subst. cbn in Q. congruence. }
    destruct (IH' rec s2 fin (opval o v x) fuel) as (s3 & E4 & A3); auto; [|lia|].
    { intros. eapply Hrec; eauto. cbn. auto. }
    exists s3. split; auto. cbn [parseLoop]. rewrite He. unfold bind at 1. rewrite E1.
    destruct (wrap_ops 64 v x ltac:(lia)) as (W1 & W2 & _).
    destruct o; [| |congruence]; cbn [fst snd opbyte Z.eqb Pos.eqb Z.leb Z.compare Pos.compare Pos.compare_cont];
    unfold bind at 1; unfold exprInfixParse, asInt; unfold bind at 1; unfold bind at 1; rewrite E2; unfold bind at 1; rewrite E3; unfold bind, ret;
    [rewrite W1|rewrite W2]; exact E4.
Qed.

Lemma max_fuel : forall (l : list (exprInfix * (bytes * Z))), Forall (fun p => Term (fst (snd p)) (snd (snd p)) /\ fst p <> Multiply) l -> exists m,
  forall text v, In (text, v) (map snd l) -> forall s rest fin fuel, (m <= fuel)%nat ->
  clean s -> compact s -> s_err s = None -> remaining s = text ++ rest -> end_error s = fin ->
  match rest with [] => True | c :: _ => c = 43 \/ c = 45 end ->
  exists s', parse fuel 3 s = Ok (Some (wrap_signed 64 v)) s' /\ at_text s' rest fin.
Proof.
  induction 1 as [|[o [t x]] l [Ht _] Hl (m & IH)]; [exists 0%nat; intros ? ? []|]. cbn [fst snd] in Ht.
  destruct (parse3 t x Ht) as (m' & P). exists (m + m')%nat. intros text v [Q|Q] s rest fin fuel Hf Hc Hk He R En St.
  - cbn in Q. injection Q as <- <-. eapply P; eauto. lia.
  - eapply IH; eauto. lia.
Qed.

Lemma parse0 : forall text v, Sum text v -> exists m, forall s fin fuel, (m <= fuel)%nat ->
  clean s -> compact s -> s_err s = None -> remaining s = text -> end_error s = fin ->
  exists s', parse fuel 0 s = Ok (Some (wrap_signed 64 v)) s' /\ at_text s' [] fin.
Proof.
  intros text v Ht. destruct (Sum_list _ _ Ht) as (t0 & v0 & l & N & F & -> & ->).
  destruct (Term_list _ _ N) as (n0 & w0 & fl & N0 & FN & -> & ->).
  destruct (max_fuel l F) as (m & M1). 
  destruct (loop_addends l F m) as (k & LA).
  exists (S (List.length fl + 3 + k + m)). intros s fin fuel Hf Hc Hk He R En.
  destruct fuel as [|fuel]; [lia|].
  rewrite <- app_assoc in R.
  destruct (Int_num s n0 w0 (factors fl ++ addends l) fin N0 Hc Hk He R En (stops_factors _ _ (stops_addends _))) as (s1 & E & A).
  assert (L : exists s2 k', (k + m <= k')%nat /\ loop (parse fuel) fuel 0 (Some (wrap_signed 64 w0)) s1
      = loop (parse fuel) k' 0 (Some (wrap_signed 64 (fold_left (fun a p => a * snd p) fl w0))) s2 /\ at_text s2 (addends l) fin).
  { assert (G : forall fl, Forall (fun p => Num (fst p) (snd p)) fl -> forall s1 w0 f, (List.length fl + (k + m) <= f)%nat ->
      at_text s1 (factors fl ++ addends l) fin ->
      exists s2 k', (k + m <= k')%nat /\ loop (parse fuel) f 0 (Some (wrap_signed 64 w0)) s1
      = loop (parse fuel) k' 0 (Some (wrap_signed 64 (fold_left (fun a p => a * snd p) fl w0))) s2 /\ at_text s2 (addends l) fin).
    { assert (Hf3 : (3 <= fuel)%nat) by lia. clear - Hf3. induction 1 as [|[t x] fl Hn Hl IH]; intros s1 w0 f Hff A.
      - exists s1, f. cbn in Hff. split; [lia|]. auto.
      - destruct f as [|f]; [cbn in Hff; lia|]. cbn [fst snd] in *.
        assert (EF : factors ((t, x) :: fl) ++ addends l = 42 :: (t ++ factors fl ++ addends l)) by (unfold factors; cbn; now rewrite <- app_assoc).
        rewrite EF in A. destruct (infix_step _ _ _ _ A) as (E1 & s2 & E2 & C1 & K1 & Er1 & R1 & En1).
        { intros Q. apply app_eq_nil in Q as [Q _]. apply num_nonempty in Hn. congruence. }
        assert (He : s_err s1 = None) by (destruct A as (_ & _ & _ & _ & [[X _]|[_ X]]); congruence).
        destruct (parse4 t x Hn s2 (factors fl ++ addends l) fin fuel ltac:(lia) C1 K1 Er1 R1 En1) as (s3 & E3 & A3).
        { apply stops_factors, stops_addends. }
        destruct (IH s3 (w0 * x) f ltac:(cbn in Hff; lia) A3) as (s4 & k' & Hk' & E4 & A4).
        exists s4, k'. split; [exact Hk'|]. split; [|exact A4]. etransitivity; [|exact E4].
        assert (Nx : wrap_signed 64 x = x) by (destruct Hn as [neg d _ _ Hv]; now apply wrap_id).
        cbn [parseLoop]. rewrite He. unfold bind at 1. rewrite E1. cbn [fst snd Z.eqb Pos.eqb Z.leb Z.compare Pos.compare Pos.compare_cont].
        unfold bind at 1. unfold exprInfixParse, asInt. unfold bind at 1. unfold bind at 1. rewrite E2. unfold bind at 1. rewrite E3. unfold bind, ret.
        destruct (wrap_ops 64 w0 x ltac:(lia)) as (_ & _ & W). rewrite Nx in W. rewrite W. reflexivity. }
    apply G; auto. lia. }
  destruct L as (s2 & k' & Hk' & L & A2).
  destruct (LA (parse fuel) s2 fin (fold_left (fun a p => a * snd p) fl w0) k') as (s3 & E3 & A3); auto.
  { intros. eapply M1; eauto. lia. }
  exists s3. split; auto. unfold exprParse at 1. cbn [Parse]. unfold bind at 1. unfold exprPrefixToken, ret. unfold bind at 1.
  unfold exprPrefixParse, bind. rewrite E. unfold ret. rewrite <- E3, <- L. f_equal. f_equal.
  symmetry. destruct N0 as [neg d _ _ Hv]. now apply wrap_id.
Qed.
