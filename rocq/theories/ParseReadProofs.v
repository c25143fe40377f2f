(** Lemmas about read.* and skip.* on a Source. *)
From Verif Require Import Base DecimalSpec JsonStrSpec JsonIntModel ParseModel ParseSpec ParseProofs.
Open Scope Z_scope.
Open Scope list_scope.

Lemma digits_value_from_app : forall a b acc, digits_value_from acc (a ++ b) = digits_value_from (digits_value_from acc a) b.
Proof. induction a as [|c a IH]; intros b acc; cbn; auto. Qed.
Lemma digits_value_snoc : forall p c, digits_value (p ++ [c]) = 10 * digits_value p + (c - 48).
Proof. intros. unfold digits_value. now rewrite digits_value_from_app. Qed.

Definition digit (c : Z) : Prop := 48 <= c <= 57.
Lemma digits_from_nonneg : forall d acc, 0 <= acc -> Forall digit d -> acc <= digits_value_from acc d.
Proof.
  induction d as [|c d IH]; intros acc Ha F; cbn [digits_value_from]; [lia|]. inversion F as [|? ? D F']; subst. unfold digit in D.
  specialize (IH (10 * acc + (c - 48)) ltac:(lia) F'). lia.
Qed.
Lemma digits_nonneg : forall d, Forall digit d -> 0 <= digits_value d.
Proof. intros. now apply digits_from_nonneg. Qed.

(** * Uint64 *)
Definition next_value (v c : Z) : Z := (10 * v + (c - 48)) mod 2^64.

Lemma uint64Body_eq : forall v c, 0 <= v < 2^64 ->
  uint64Body v c = if is_digit c then if next_value v c <? v then Fail (ErrMsg (bs "uint64: overflow")) else Go (next_value v c)
                   else Stop.
Proof.
  intros v c Hv. unfold uint64Body, intDigits, is_digit.
  destruct ((48 <=? c) && (c <=? 57)) eqn:D; [|reflexivity].
  apply andb_true_iff in D as [D1 D2].
  destruct (Z.eqb_spec (c - 48) (-1)); [lia|].
  assert (E : u64 (u64 (u64 (Z.shiftl v 3) + u64 (Z.shiftl v 1)) + (c - 48)) = next_value v c).
  { unfold u64, next_value. rewrite !Z.shiftl_mul_pow2 by lia.
    rewrite <- (Zplus_mod (v * 2 ^ 3) (v * 2 ^ 1)), Zplus_mod_idemp_l. f_equal. lia. }
  rewrite E. change uint64SafeToMultiple10 with 1844674407370955160.
  destruct (Z.ltb_spec 1844674407370955160 v) as [L|L]; auto.
  unfold next_value. rewrite Z.mod_small by lia. destruct (Z.ltb_spec (10 * v + (c - 48)) v); [lia|auto].
Qed.

Lemma next_range : forall v c, 0 <= next_value v c < 2^64.
Proof. intros. apply Z.mod_pos_bound. lia. Qed.

Lemma next_value_digits : forall p c, next_value (digits_value p mod 2^64) c = digits_value (p ++ [c]) mod 2^64.
Proof.
  intros p c. unfold next_value. rewrite digits_value_snoc.
  rewrite <- Zplus_mod_idemp_l, Zmult_mod_idemp_r, Zplus_mod_idemp_l. reflexivity.
Qed.


Lemma walk_uint64 : forall d p rest, Forall digit d -> match rest with [] => True | c :: _ => ~ digit c end ->
  let v0 := digits_value p mod 2^64 in
  ((forall p' c q, d = p' ++ c :: q -> ~ digits_value ((p ++ p') ++ [c]) mod 2^64 < digits_value (p ++ p') mod 2^64) /\
   walk uint64Body v0 (d ++ rest) = (digits_value (p ++ d) mod 2^64, rest, match rest with [] => AtEnd | _ => Stopped end)) \/
  ((exists p' c q, d = p' ++ c :: q /\ digits_value ((p ++ p') ++ [c]) mod 2^64 < digits_value (p ++ p') mod 2^64) /\
   exists v b, walk uint64Body v0 (d ++ rest) = (v, b, Failed (ErrMsg (bs "uint64: overflow")))).
Proof.
  induction d as [|c d IH]; intros p rest F N v0.
  - left. split; [intros p' c q E; destruct p'; discriminate|]. rewrite app_nil_r. cbn [app].
    destruct rest as [|c rest]; [reflexivity|]. cbn [walk]. rewrite uint64Body_eq by (apply Z.mod_pos_bound; lia).
    unfold digit in N. assert (is_digit c = false) as -> by (unfold is_digit; lia). reflexivity.
  - inversion F as [|? ? D F']; subst. cbn [app walk]. rewrite uint64Body_eq by (apply Z.mod_pos_bound; lia).
    assert (is_digit c = true) as -> by (unfold is_digit, digit in *; lia).
    unfold v0. rewrite next_value_digits.
    destruct (Z.ltb_spec (digits_value (p ++ [c]) mod 2^64) (digits_value p mod 2^64)) as [L|L].
    + right. split; [|eauto]. exists [], c, d. split; auto. now rewrite app_nil_r.
    + specialize (IH (p ++ [c]) rest F' N). cbv zeta in IH.
      assert (A : forall x, (p ++ [c]) ++ x = p ++ c :: x) by (intros; now rewrite <- app_assoc).
      destruct IH as [[H W]|[H W]].
      * left. split; [|rewrite W, A; reflexivity]. intros p' c' q E. destruct p' as [|x p']; cbn [app] in E; injection E as <- E.
        -- subst. rewrite app_nil_r. lia.
        -- specialize (H _ _ _ E). rewrite A in H. exact H.
      * right. split; auto. destruct H as (p' & c' & q & -> & H). exists (c :: p'), c', q. rewrite A in H. auto.
Qed.

Lemma digits_snoc_le : forall p c q, Forall digit (p ++ c :: q) -> digits_value (p ++ [c]) <= digits_value (p ++ c :: q).
Proof.
  intros p c q F. replace (p ++ c :: q) with ((p ++ [c]) ++ q) by now rewrite <- app_assoc.
  unfold digits_value. rewrite (digits_value_from_app (p ++ [c]) q). 
  replace (p ++ c :: q) with ((p ++ [c]) ++ q) in F by now rewrite <- app_assoc.
  apply Forall_app in F as [F1 F2]. apply digits_from_nonneg; auto. now apply digits_nonneg.
Qed.

Lemma small_no_drop : forall d, Forall digit d -> digits_value d < 2^64 -> ~ drops d.
Proof.
  intros d F H (p & c & q & -> & L).
  assert (H1 := digits_snoc_le p c q F). rewrite digits_value_snoc in *.
  apply Forall_app in F as [F1 F2]. inversion F2 as [|? ? D _]; subst. unfold digit in D.
  pose proof (digits_nonneg p F1). rewrite !Z.mod_small in L by lia. lia.
Qed.

Lemma Uint64_spec : forall s d rest, clean s -> s_err s = None -> longest digit (remaining s) d rest ->
  exists s', clean s' /\ end_error s' = end_error s /\ (compact s -> compact s') /\
  ((~ drops d /\ Uint64 s = Ok (digits_value d mod 2^64) s' /\ remaining s' = rest /\
    (rest = [] /\ s_err s' = Some (end_error s) \/ rest <> [] /\ s_err s' = None /\ s_current s' <> [])) \/
   (drops d /\ Uint64 s = Ok 0 s' /\ s_err s' = Some (ErrMsg (bs "uint64: overflow")))).
Proof.
  intros s d rest Hc He (E & F & N). 
  destruct (scan_spec Z uint64Body 0 0 s Hc He) as (s' & C' & En & K & W).
  exists s'. split; auto. split; auto. split; auto.
  pose proof (walk_uint64 d [] rest F N) as WU. cbv zeta in WU. rewrite E in W.
  change (digits_value [] mod 2 ^ 64) with 0 in WU. cbn [app] in WU. unfold Uint64.
  destruct WU as [[H WU]|[H (v & b & WU)]]; rewrite WU in W.
  - left. split; [intros (p & c & q & E' & L); eapply H; eauto|]. destruct rest as [|c rest]; cbn in W.
    + destruct W as (W1 & W2 & W3). auto 6.
    + destruct W as (W1 & W2 & W3 & W4). split; [exact W1|]. split; [exact W2|]. right. split; [discriminate|auto].
  - right. split; [exact H|]. exact W.
Qed.

(** * Stopping at a byte *)
Lemma walk_longest : forall A (P : Z -> Prop) (body : A -> Z -> verdict A) (f : A -> Z -> A),
  (forall a c, P c -> body a c = Go (f a c)) -> (forall a c, ~ P c -> body a c = Stop) ->
  forall d rest a, Forall P d -> match rest with [] => True | c :: _ => ~ P c end ->
  walk body a (d ++ rest) = (fold_left f d a, rest, match rest with [] => AtEnd | _ => Stopped end).
Proof.
  intros A P body f HG HS. induction d as [|c d IH]; intros rest a F N; cbn [app walk fold_left].
  - destruct rest as [|c rest]; [reflexivity|]. cbn [walk]. now rewrite HS.
  - inversion F; subst. rewrite HG by auto. apply IH; auto.
Qed.

Lemma scan_longest : forall A (P : Z -> Prop) (body : A -> Z -> verdict A) (f : A -> Z -> A) zero a s d rest,
  (forall a c, P c -> body a c = Go (f a c)) -> (forall a c, ~ P c -> body a c = Stop) ->
  clean s -> s_err s = None -> longest P (remaining s) d rest ->
  exists s', scan body zero a s = Ok (fold_left f d a) s' /\ remaining s' = rest /\
    clean s' /\ end_error s' = end_error s /\ (compact s -> compact s') /\
    (rest = [] /\ s_err s' = Some (end_error s) \/ rest <> [] /\ s_err s' = None /\ s_current s' <> []).
Proof.
  intros A P body f zero a s d rest HG HS Hc He (E & F & N).
  destruct (scan_spec A body zero a s Hc He) as (s' & C' & En & K & W). exists s'.
  rewrite E, (walk_longest A P body f HG HS d rest a F N) in W. destruct rest as [|c rest]; cbn in W.
  - destruct W as (W1 & W2 & W3). auto 10.
  - destruct W as (W1 & W2 & W3 & W4). repeat split; auto. right. split; [discriminate|auto].
Qed.

Lemma fold_append : forall d a, fold_left (fun a c => a ++ [c]) d a = a ++ d :> bytes.
Proof. induction d as [|c d IH]; intros a; cbn; [now rewrite app_nil_r|]. now rewrite IH, <- app_assoc. Qed.
Lemma fold_count : forall (d : bytes) a, fold_left (fun a _ => a + 1) d a = a + lenZ d.
Proof. unfold lenZ. induction d as [|c d IH]; intros a; cbn [fold_left List.length]; [lia|]. rewrite IH. lia. Qed.

(** * UTF-8 *)
Lemma utf8_decode : forall u rest, is_scalar u -> DecodeRune (utf8 u ++ rest) = (u, lenZ (utf8 u)).
Proof.
  intros u rest H. unfold is_scalar in H. unfold utf8.
  destruct (Z.ltb_spec u 128).
  { cbn [app]. unfold DecodeRune, first. destruct (Z.ltb_spec u 0x80); [reflexivity|lia]. }
  destruct (Z.ltb_spec u 2048).
  { cbn [app]. 
    assert (D := Z.div_mod u 64 ltac:(lia)). assert (B := Z.mod_pos_bound u 64 ltac:(lia)).
    set (q := u / 64) in *. set (r := u mod 64) in *.
    assert (first (192 + q) = 2) as F.
    { unfold first. repeat match goal with |- context[if ?b then _ else _] => destruct b eqn:? end; lia. }
    unfold DecodeRune. rewrite F. cbn -[Z.mul Z.modulo Z.add Z.ltb Z.div lenZ].
    change (2 / 16) with 0. cbn -[Z.mul Z.modulo Z.add Z.ltb Z.div lenZ].
    destruct (Z.ltb_spec (128 + r) 128); [lia|]. destruct (Z.ltb_spec 191 (128 + r)); [lia|]. cbn [orb].
    replace ((192 + q) mod 32) with q. 2:{ apply Z.mod_unique with 6; lia. }
    replace ((128 + r) mod 64) with r. 2:{ apply Z.mod_unique with 2; lia. }
    apply f_equal2; [lia|reflexivity]. }
  destruct (Z.ltb_spec u 65536).
  { cbn [app].
    assert (D := Z.div_mod u 64 ltac:(lia)). assert (B := Z.mod_pos_bound u 64 ltac:(lia)).
    assert (D2 := Z.div_mod (u / 64) 64 ltac:(lia)). assert (B2 := Z.mod_pos_bound (u / 64) 64 ltac:(lia)).
    rewrite Z.div_div in D2 by lia. change (64 * 64) with 4096 in D2.
    set (q2 := u / 4096) in *. set (q := u / 64) in *. set (r := u mod 64) in *. set (r2 := q mod 64) in *.
    assert (F : (q2 = 0 /\ first (224 + q2) = 0x13) \/ (q2 = 13 /\ first (224 + q2) = 0x23) \/ (0 < q2 < 16 /\ q2 <> 13 /\ first (224 + q2) = 0x03)).
    { unfold first. repeat match goal with |- context[if ?b then _ else _] => destruct b eqn:? end; lia. }
    unfold DecodeRune, contByte. 
    assert (X1 : (224 + q2) mod 16 = q2) by (symmetry; apply Z.mod_unique with 14; lia).
    assert (X2 : (128 + r2) mod 64 = r2) by (symmetry; apply Z.mod_unique with 2; lia).
    assert (X3 : (128 + r) mod 64 = r) by (symmetry; apply Z.mod_unique with 2; lia).
    destruct F as [[F1 F]|[[F1 F]|[F1 [F2 F]]]]; rewrite F; cbn -[Z.mul Z.modulo Z.add Z.ltb Z.leb Z.div lenZ];
    match goal with |- context[acceptRange ?x] => let v := eval vm_compute in (acceptRange x) in change (acceptRange x) with v end;
    cbv iota beta; cbn -[Z.mul Z.modulo Z.add Z.ltb Z.leb Z.div lenZ];
    repeat match goal with |- context[?a <? ?b] => destruct (Z.ltb_spec a b); [lia|] end;
    repeat match goal with |- context[?a <=? ?b] => destruct (Z.leb_spec a b); [|lia] end;
    cbn [orb andb negb]; rewrite X1, X2, X3; (apply f_equal2; [lia|reflexivity]). }
  { cbn [app].
    assert (D := Z.div_mod u 64 ltac:(lia)). assert (B := Z.mod_pos_bound u 64 ltac:(lia)).
    assert (D2 := Z.div_mod (u / 64) 64 ltac:(lia)). assert (B2 := Z.mod_pos_bound (u / 64) 64 ltac:(lia)).
    rewrite Z.div_div in D2 by lia. change (64 * 64) with 4096 in D2.
    assert (D3 := Z.div_mod (u / 4096) 64 ltac:(lia)). assert (B3 := Z.mod_pos_bound (u / 4096) 64 ltac:(lia)).
    rewrite Z.div_div in D3 by lia. change (4096 * 64) with 262144 in D3.
    set (q3 := u / 262144) in *. set (q2 := u / 4096) in *. set (q := u / 64) in *. set (r := u mod 64) in *. set (r2 := q mod 64) in *.
    set (r3 := q2 mod 64) in *.
    assert (F : (q3 = 0 /\ first (240 + q3) = 0x34) \/ (q3 = 4 /\ first (240 + q3) = 0x44) \/ (0 < q3 < 4 /\ first (240 + q3) = 0x04)).
    { unfold first. repeat match goal with |- context[if ?b then _ else _] => destruct b eqn:? end; lia. }
    unfold DecodeRune, contByte. 
    assert (X0 : (240 + q3) mod 8 = q3) by (symmetry; apply Z.mod_unique with 30; lia).
    assert (X1 : (128 + r3) mod 64 = r3) by (symmetry; apply Z.mod_unique with 2; lia).
    assert (X2 : (128 + r2) mod 64 = r2) by (symmetry; apply Z.mod_unique with 2; lia).
    assert (X3 : (128 + r) mod 64 = r) by (symmetry; apply Z.mod_unique with 2; lia).
    destruct F as [[F1 F]|[[F1 F]|[F1 F]]]; rewrite F; cbn -[Z.mul Z.modulo Z.add Z.ltb Z.leb Z.div lenZ];
    match goal with |- context[acceptRange ?x] => let v := eval vm_compute in (acceptRange x) in change (acceptRange x) with v end;
    cbv iota beta; cbn -[Z.mul Z.modulo Z.add Z.ltb Z.leb Z.div lenZ];
    repeat match goal with |- context[?a <? ?b] => destruct (Z.ltb_spec a b); [lia|] end;
    repeat match goal with |- context[?a <=? ?b] => destruct (Z.leb_spec a b); [|lia] end;
    cbn [orb andb negb]; rewrite X0, X1, X2, X3; (apply f_equal2; [lia|reflexivity]). }
Qed.

Lemma first_cases : forall b,
  (b < 128 /\ first b = 0xF0) \/ (first b = 0xF1) \/ (0xC2 <= b <= 0xDF /\ first b = 2) \/
  (b = 0xE0 /\ first b = 0x13) \/ (b = 0xED /\ first b = 0x23) \/ (0xE1 <= b <= 0xEF /\ b <> 0xED /\ first b = 3) \/
  (b = 0xF0 /\ first b = 0x34) \/ (0xF1 <= b <= 0xF3 /\ first b = 4) \/ (b = 0xF4 /\ first b = 0x44).
Proof.
  intros b. unfold first, c_as, c_xx.
  repeat match goal with |- context[if ?b then _ else _] => destruct b eqn:? end; lia.
Qed.

Lemma mod_eq : forall a m q r, 0 <= r < m -> a = m * q + r -> a mod m = r.
Proof. intros a m q r H E. symmetry. now apply Z.mod_unique with q; auto. Qed.
Lemma div_eq : forall a m q r, 0 <= r < m -> a = m * q + r -> a / m = q.
Proof. intros a m q r H E. symmetry. now apply Z.div_unique with r; auto. Qed.

Lemma utf8_2 : forall p b, 0xC2 <= p <= 0xDF -> 0x80 <= b <= 0xBF ->
  let u := p mod 32 * 64 + b mod 64 in is_scalar u /\ utf8 u = [p; b].
Proof.
  intros p b Hp Hb u. assert (E1 : p mod 32 = p - 192) by (apply (mod_eq _ _ 6); lia).
  assert (E2 : b mod 64 = b - 128) by (apply (mod_eq _ _ 2); lia).
  unfold u. rewrite E1, E2. split; [unfold is_scalar; lia|]. unfold utf8.
  destruct (Z.ltb_spec ((p - 192) * 64 + (b - 128)) 128); [lia|].
  destruct (Z.ltb_spec ((p - 192) * 64 + (b - 128)) 2048); [|lia].
  rewrite (div_eq _ 64 (p - 192) (b - 128)), (mod_eq _ 64 (p - 192) (b - 128)) by lia.
  f_equal; [lia|f_equal; lia].
Qed.

Lemma utf8_3 : forall p b c, 0xE0 <= p <= 0xEF -> 0x80 <= b <= 0xBF -> 0x80 <= c <= 0xBF ->
  (p = 0xE0 -> 0xA0 <= b) -> (p = 0xED -> b <= 0x9F) ->
  let u := p mod 16 * 4096 + b mod 64 * 64 + c mod 64 in is_scalar u /\ utf8 u = [p; b; c].
Proof.
  intros p b c Hp Hb Hc H1 H2 u. assert (E1 : p mod 16 = p - 224) by (apply (mod_eq _ _ 14); lia).
  assert (E2 : b mod 64 = b - 128) by (apply (mod_eq _ _ 2); lia).
  assert (E3 : c mod 64 = c - 128) by (apply (mod_eq _ _ 2); lia).
  unfold u. rewrite E1, E2, E3. set (v := (p - 224) * 4096 + (b - 128) * 64 + (c - 128)).
  assert (V : v = (p - 224) * 4096 + (b - 128) * 64 + (c - 128)) by reflexivity. clearbody v.
  split; [unfold is_scalar; lia|]. unfold utf8.
  destruct (Z.ltb_spec v 128); [lia|]. destruct (Z.ltb_spec v 2048); [lia|]. destruct (Z.ltb_spec v 65536); [|lia].
  rewrite (div_eq v 4096 (p - 224) ((b - 128) * 64 + (c - 128))) by lia.
  rewrite (div_eq v 64 ((p - 224) * 64 + (b - 128)) (c - 128)) by lia.
  rewrite (mod_eq v 64 ((p - 224) * 64 + (b - 128)) (c - 128)) by lia.
  rewrite (mod_eq ((p - 224) * 64 + (b - 128)) 64 (p - 224) (b - 128)) by lia.
  f_equal; [lia|f_equal; [lia|f_equal; lia]].
Qed.

Lemma utf8_4 : forall p b c d, 0xF0 <= p <= 0xF4 -> 0x80 <= b <= 0xBF -> 0x80 <= c <= 0xBF -> 0x80 <= d <= 0xBF ->
  (p = 0xF0 -> 0x90 <= b) -> (p = 0xF4 -> b <= 0x8F) ->
  let u := p mod 8 * 262144 + b mod 64 * 4096 + c mod 64 * 64 + d mod 64 in is_scalar u /\ utf8 u = [p; b; c; d].
Proof.
  intros p b c d Hp Hb Hc Hd H1 H2 u. assert (E1 : p mod 8 = p - 240) by (apply (mod_eq _ _ 30); lia).
  assert (E2 : b mod 64 = b - 128) by (apply (mod_eq _ _ 2); lia).
  assert (E3 : c mod 64 = c - 128) by (apply (mod_eq _ _ 2); lia).
  assert (E4 : d mod 64 = d - 128) by (apply (mod_eq _ _ 2); lia).
  unfold u. rewrite E1, E2, E3, E4. set (v := (p - 240) * 262144 + (b - 128) * 4096 + (c - 128) * 64 + (d - 128)).
  assert (V : v = (p - 240) * 262144 + (b - 128) * 4096 + (c - 128) * 64 + (d - 128)) by reflexivity. clearbody v.
  split; [unfold is_scalar; lia|]. unfold utf8.
  destruct (Z.ltb_spec v 128); [lia|]. destruct (Z.ltb_spec v 2048); [lia|]. destruct (Z.ltb_spec v 65536); [lia|].
  rewrite (div_eq v 262144 (p - 240) ((b - 128) * 4096 + (c - 128) * 64 + (d - 128))) by lia.
  rewrite (div_eq v 4096 ((p - 240) * 64 + (b - 128)) ((c - 128) * 64 + (d - 128))) by lia.
  rewrite (div_eq v 64 ((p - 240) * 4096 + (b - 128) * 64 + (c - 128)) (d - 128)) by lia.
  rewrite (mod_eq v 64 ((p - 240) * 4096 + (b - 128) * 64 + (c - 128)) (d - 128)) by lia.
  rewrite (mod_eq ((p - 240) * 4096 + (b - 128) * 64 + (c - 128)) 64 ((p - 240) * 64 + (b - 128)) (c - 128)) by lia.
  rewrite (mod_eq ((p - 240) * 64 + (b - 128)) 64 (p - 240) (b - 128)) by lia.
  f_equal; [lia|f_equal; [lia|f_equal; [lia|f_equal; lia]]].
Qed.

(** Either an error of width 1, or the front is the encoding of the rune. *)
Lemma DecodeRune_cases : forall s, bytes_ok s -> s <> [] ->
  DecodeRune s = (RuneError, 1) \/
  exists u rest, is_scalar u /\ s = utf8 u ++ rest /\ DecodeRune s = (u, lenZ (utf8 u)).
Proof.
  intros s B N. destruct s as [|p0 p]; [congruence|]. inversion B as [|? ? B0 B']; subst.
  assert (Q : (exists u rest, is_scalar u /\ p0 :: p = utf8 u ++ rest) \/ DecodeRune (p0 :: p) = (RuneError, 1)).
  { destruct (first_cases p0) as [[H F]|[F|[[H F]|[[H F]|[[H F]|[(H & H' & F)|[[H F]|[[H F]|[H F]]]]]]]]].
    - left. exists p0, p. unfold byte_ok in B0. split; [unfold is_scalar; lia|]. unfold utf8.
      destruct (Z.ltb_spec p0 128); [reflexivity|lia].
    - right. unfold DecodeRune. rewrite F. reflexivity.
    - unfold DecodeRune. rewrite F. cbn -[Z.mul Z.modulo Z.add Z.ltb Z.leb Z.div]. change (2 / 16) with 0.
      cbn -[Z.mul Z.modulo Z.add Z.ltb Z.leb Z.div]. change (2 mod 8 <=? 2) with true. cbv iota.
      destruct p as [|b1 p]; auto. destruct ((b1 <? 128) || (191 <? b1)) eqn:E; auto. apply orb_false_iff in E as [E1 E2].
      left. destruct (utf8_2 p0 b1 H ltac:(lia)) as [S U]. eexists. exists p. split; [exact S|]. now rewrite U.
    - unfold DecodeRune. rewrite F. cbn -[Z.mul Z.modulo Z.add Z.ltb Z.leb Z.div]. change (acceptRange (0x13 / 16)) with (0xA0, 0xBF).
      cbv iota beta. change (0x13 mod 8 <=? 2) with false. change (0x13 mod 8 <=? 3) with true. cbv iota.
      destruct p as [|b1 [|b2 p]]; auto. destruct ((b1 <? 160) || (191 <? b1)) eqn:E; auto. apply orb_false_iff in E as [E1 E2].
      unfold contByte. destruct ((128 <=? b2) && (b2 <=? 191)) eqn:E; [|auto]. apply andb_true_iff in E as [E3 E4].
      left. destruct (utf8_3 p0 b1 b2 ltac:(lia) ltac:(lia) ltac:(lia) ltac:(lia) ltac:(lia)) as [S U].
      eexists. exists p. split; [exact S|]. now rewrite U.
    - unfold DecodeRune. rewrite F. cbn -[Z.mul Z.modulo Z.add Z.ltb Z.leb Z.div]. change (acceptRange (0x23 / 16)) with (0x80, 0x9F).
      cbv iota beta. change (0x23 mod 8 <=? 2) with false. change (0x23 mod 8 <=? 3) with true. cbv iota.
      destruct p as [|b1 [|b2 p]]; auto. destruct ((b1 <? 128) || (159 <? b1)) eqn:E; auto. apply orb_false_iff in E as [E1 E2].
      unfold contByte. destruct ((128 <=? b2) && (b2 <=? 191)) eqn:E; [|auto]. apply andb_true_iff in E as [E3 E4].
      left. destruct (utf8_3 p0 b1 b2 ltac:(lia) ltac:(lia) ltac:(lia) ltac:(lia) ltac:(lia)) as [S U].
      eexists. exists p. split; [exact S|]. now rewrite U.
    - unfold DecodeRune. rewrite F. cbn -[Z.mul Z.modulo Z.add Z.ltb Z.leb Z.div]. change (acceptRange (3 / 16)) with (0x80, 0xBF).
      cbv iota beta. change (3 mod 8 <=? 2) with false. change (3 mod 8 <=? 3) with true. cbv iota.
      destruct p as [|b1 [|b2 p]]; auto. destruct ((b1 <? 128) || (191 <? b1)) eqn:E; auto. apply orb_false_iff in E as [E1 E2].
      unfold contByte. destruct ((128 <=? b2) && (b2 <=? 191)) eqn:E; [|auto]. apply andb_true_iff in E as [E3 E4].
      left. destruct (utf8_3 p0 b1 b2 ltac:(lia) ltac:(lia) ltac:(lia) ltac:(lia) ltac:(lia)) as [S U].
      eexists. exists p. split; [exact S|]. now rewrite U.
    - unfold DecodeRune. rewrite F. cbn -[Z.mul Z.modulo Z.add Z.ltb Z.leb Z.div]. change (acceptRange (0x34 / 16)) with (0x90, 0xBF).
      cbv iota beta. change (0x34 mod 8 <=? 2) with false. change (0x34 mod 8 <=? 3) with false. cbv iota.
      destruct p as [|b1 [|b2 [|b3 p]]]; auto. destruct ((b1 <? 144) || (191 <? b1)) eqn:E; auto. apply orb_false_iff in E as [E1 E2].
      unfold contByte. destruct ((128 <=? b2) && (b2 <=? 191)) eqn:E; [|auto]. apply andb_true_iff in E as [E3 E4].
      destruct ((128 <=? b3) && (b3 <=? 191)) eqn:E; [|auto]. apply andb_true_iff in E as [E5 E6].
      left. destruct (utf8_4 p0 b1 b2 b3 ltac:(lia) ltac:(lia) ltac:(lia) ltac:(lia) ltac:(lia) ltac:(lia)) as [S U].
      eexists. exists p. split; [exact S|]. now rewrite U.
    - unfold DecodeRune. rewrite F. cbn -[Z.mul Z.modulo Z.add Z.ltb Z.leb Z.div]. change (acceptRange (4 / 16)) with (0x80, 0xBF).
      cbv iota beta. change (4 mod 8 <=? 2) with false. change (4 mod 8 <=? 3) with false. cbv iota.
      destruct p as [|b1 [|b2 [|b3 p]]]; auto. destruct ((b1 <? 128) || (191 <? b1)) eqn:E; auto. apply orb_false_iff in E as [E1 E2].
      unfold contByte. destruct ((128 <=? b2) && (b2 <=? 191)) eqn:E; [|auto]. apply andb_true_iff in E as [E3 E4].
      destruct ((128 <=? b3) && (b3 <=? 191)) eqn:E; [|auto]. apply andb_true_iff in E as [E5 E6].
      left. destruct (utf8_4 p0 b1 b2 b3 ltac:(lia) ltac:(lia) ltac:(lia) ltac:(lia) ltac:(lia) ltac:(lia)) as [S U].
      eexists. exists p. split; [exact S|]. now rewrite U.
    - unfold DecodeRune. rewrite F. cbn -[Z.mul Z.modulo Z.add Z.ltb Z.leb Z.div]. change (acceptRange (0x44 / 16)) with (0x80, 0x8F).
      cbv iota beta. change (0x44 mod 8 <=? 2) with false. change (0x44 mod 8 <=? 3) with false. cbv iota.
      destruct p as [|b1 [|b2 [|b3 p]]]; auto. destruct ((b1 <? 128) || (143 <? b1)) eqn:E; auto. apply orb_false_iff in E as [E1 E2].
      unfold contByte. destruct ((128 <=? b2) && (b2 <=? 191)) eqn:E; [|auto]. apply andb_true_iff in E as [E3 E4].
      destruct ((128 <=? b3) && (b3 <=? 191)) eqn:E; [|auto]. apply andb_true_iff in E as [E5 E6].
      left. destruct (utf8_4 p0 b1 b2 b3 ltac:(lia) ltac:(lia) ltac:(lia) ltac:(lia) ltac:(lia) ltac:(lia)) as [S U].
      eexists. exists p. split; [exact S|]. now rewrite U. }
  destruct Q as [(u & rest & S & E)|Q]; [right|left; exact Q]. exists u, rest. split; auto. split; auto.
  rewrite E. now apply utf8_decode.
Qed.

Lemma DecodeRune_decodes : forall s, bytes_ok s -> decodes s (fst (DecodeRune s)) (snd (DecodeRune s)).
Proof.
  intros s B. destruct s as [|p0 p]; [right; right; auto|].
  destruct (DecodeRune_cases (p0 :: p) B ltac:(discriminate)) as [E|(u & rest & S & E & D)].
  - right. left. rewrite E. cbn [fst snd]. split; [discriminate|]. split; [|auto]. intros u rest S E'.
    rewrite E', utf8_decode in E by auto. injection E as -> E. vm_compute in E. discriminate.
  - left. exists rest. rewrite D. auto.
Qed.

Lemma decodes_unique : forall s r n r' n', decodes s r n -> decodes s r' n' -> r = r' /\ n = n'.
Proof.
  assert (U : forall u rest u' rest', is_scalar u -> is_scalar u' -> utf8 u ++ rest = utf8 u' ++ rest' -> u = u').
  { intros u rest u' rest' S S' E. apply (f_equal DecodeRune) in E. rewrite !utf8_decode in E by auto. congruence. }
  intros s r n r' n' [(rest & S & E & ->)|[(N & H & -> & ->)|(E & -> & ->)]]
    [(rest' & S' & E' & ->)|[(N' & H' & -> & ->)|(E' & -> & ->)]]; auto; try tauto.
  - assert (r = r') by (apply (U r rest r' rest' S S'); congruence). subst. auto.
  - exfalso. eapply H'; eauto.
  - exfalso. rewrite E' in E. unfold utf8 in E. repeat (destruct (_ <? _)); discriminate.
  - exfalso. eapply H; eauto.
  - exfalso. rewrite E in E'. unfold utf8 in E'. repeat (destruct (_ <? _)); discriminate.
Qed.

(** DecodeRune looks no further than the size given by the first byte. *)
Lemma DecodeRune_prefix : forall p0 p, (Z.to_nat (first p0 mod 8) <= 8)%nat ->
  first p0 < 0xF0 -> DecodeRune (firstn (Z.to_nat (first p0 mod 8)) (p0 :: p)) = DecodeRune (p0 :: p).
Proof.
  intros p0 p _ L.
  destruct (first_cases p0) as [[H F]|[F|[[H F]|[[H F]|[[H F]|[(H & H' & F)|[[H F]|[[H F]|[H F]]]]]]]]];
  rewrite F in *; try lia;
  match goal with |- context[Z.to_nat ?x] => let v := eval vm_compute in (Z.to_nat x) in change (Z.to_nat x) with v end;
  cbn [firstn]; unfold DecodeRune; rewrite F; cbv zeta;
  destruct p as [|b1 [|b2 [|b3 p]]]; cbn [firstn]; reflexivity.
Qed.

Lemma PeekRune_spec : forall s, clean s -> s_current s <> [] ->
  exists s', PeekRune s = (DecodeRune (remaining s), s') /\
    remaining s' = remaining s /\ clean s' /\ end_error s' = end_error s /\ s_err s' = s_err s /\
    s_current s' = s_current s /\ exists z, chunks s' = chunks s ++ z /\ Forall (fun c => c = []) z.
Proof.
  intros s Hc Hn. unfold PeekRune.
  destruct (s_current s) as [|p0 cur] eqn:EC; [congruence|].
  assert (R : exists more, remaining s = p0 :: cur ++ more).
  { unfold remaining, chunks. rewrite EC. cbn [List.concat app]. eauto. }
  destruct R as (more & R).
  destruct (Z.leb_spec c_as (first p0)) as [L|L]; unfold c_as in L.
  - exists s. split.
    { f_equal. rewrite R. unfold DecodeRune.
      destruct (first_cases p0) as [[H F]|[F|[[H F]|[[H F]|[[H F]|[(H & H' & F)|[[H F]|[[H F]|[H F]]]]]]]]]; rewrite F in *; try lia; reflexivity. }
    repeat split; auto. exists []. rewrite app_nil_r. auto.
  - destruct (PeekN_spec (Z.to_nat (Z.land (first p0) 7)) s Hc) as (s' & E & H). rewrite E.
    exists s'. rewrite EC in H. split; [|exact H]. f_equal.
    assert (LA : Z.land (first p0) 7 = first p0 mod 8) by (change 7 with (Z.ones 3); rewrite Z.land_ones by lia; reflexivity).
    rewrite LA, R. apply DecodeRune_prefix; auto.
    assert (0 <= first p0 mod 8 < 8) by (apply Z.mod_pos_bound; lia). lia.
Qed.

(** * Runs of runes *)
Lemma decodes_width : forall s r n, s <> [] -> decodes s r n -> 1 <= n /\ (Z.to_nat n <= List.length s)%nat.
Proof.
  intros s r n N [(rest & S & -> & ->)|[(_ & _ & -> & ->)|(E & _)]]; [| |congruence].
  - rewrite app_length. unfold lenZ. assert (1 <= Z.of_nat (List.length (utf8 r))).
    { unfold utf8. repeat (destruct (_ <? _)); cbn; lia. }
    lia.
  - destruct s; [congruence|]. cbn. lia.
Qed.

Lemma compact_current : forall s, compact s -> remaining s <> [] -> s_current s <> [].
Proof.
  intros s K N E. apply N. unfold remaining. pose proof (K [] (tl (chunks s))) as H. unfold chunks in *. cbn [tl app List.concat] in *.
  rewrite E in *. cbn [app]. now apply H.
Qed.

Lemma bytes_ok_skipn : forall n s, bytes_ok s -> bytes_ok (skipn n s).
Proof. unfold bytes_ok. intros n s H. rewrite <- (firstn_skipn n s) in H. now apply Forall_app in H. Qed.

(** One step of the loops over runes. *)
Lemma peek_consume : forall s, clean s -> compact s -> remaining s <> [] -> bytes_ok (remaining s) ->
  exists r n s1, PeekRune s = ((r, n), s1) /\ decodes (remaining s) r n /\ remaining s1 = remaining s /\ clean s1 /\ compact s1 /\
    end_error s1 = end_error s /\ s_err s1 = s_err s /\
    exists s2, ConsumeN (Z.to_nat n) s1 = Ok tt s2 /\ remaining s2 = skipn (Z.to_nat n) (remaining s) /\
      clean s2 /\ compact s2 /\ end_error s2 = end_error s /\
      (s_err s2 = s_err s \/ remaining s2 = [] /\ s_err s2 = or_else (s_err s) (end_error s)).
Proof.
  intros s Hc Hk Hn B.
  destruct (PeekRune_spec s Hc (compact_current s Hk Hn)) as (s1 & E & R & C1 & E1 & Er & _ & z & Z1 & Z2).
  pose proof (DecodeRune_decodes (remaining s) B) as D.
  destruct (DecodeRune (remaining s)) as [r n] eqn:ED. cbn [fst snd] in D. exists r, n, s1.
  assert (K1 : compact s1) by (eapply compact_extend; eauto).
  split; [exact E|]. split; [exact D|]. split; auto. split; auto. split; auto. split; auto. split; auto.
  destruct (decodes_width _ _ _ Hn D) as [_ W].
  destruct (ConsumeN_ok (Z.to_nat n) s1 C1 ltac:(rewrite R; exact W)) as (s2 & E2 & R2 & C2 & En2 & K2 & Er2 & _).
  exists s2. rewrite R in R2. rewrite Er, E1 in Er2. split; auto. split; auto. split; auto. split; auto. split; [congruence|auto].
Qed.

Lemma peek_end : forall s, remaining s = [] -> PeekRune s = ((RuneError, 1), s).
Proof.
  intros s R. unfold PeekRune. unfold remaining, chunks in R. cbn [List.concat] in R. apply app_eq_nil in R as [-> _]. reflexivity.
Qed.

Lemma UnicodeRange_spec : forall (t : table) m s space, clean s -> compact s -> bytes_ok (remaining s) ->
  t RuneError = false -> (List.length (remaining s) < m)%nat ->
  exists rs rest s', (forall fuel, (m <= fuel)%nat -> UnicodeRange fuel space t s = Ok (space ++ rs) s') /\
    rune_run (fun r => t r = true) (remaining s) rs rest /\ remaining s' = rest /\ clean s' /\ compact s'.
Proof.
  intros t. induction m as [|m IH]; intros s space Hc Hk B T L; [lia|].
  destruct (remaining s) as [|c0 r0] eqn:R.
  - exists [], [], s. split; [|split; [constructor|auto]]. intros fuel Hf. destruct fuel as [|fuel]; [lia|].
    cbn [UnicodeRange]. rewrite (peek_end s R), T. now rewrite app_nil_r.
  - assert (Hn : remaining s <> []) by (rewrite R; discriminate). rewrite <- R in *.
    destruct (peek_consume s Hc Hk Hn B) as (r & n & s1 & E & D & R1 & C1 & K1 & En1 & Er1 & s2 & E2 & R2 & C2 & K2 & En2 & Er2).
    destruct (t r) eqn:Tr.
    + assert (W := decodes_width _ _ _ Hn D).
      assert (L2 : (List.length (remaining s2) < m)%nat) by (rewrite R2, skipn_length; lia).
      destruct (IH s2 (space ++ [r]) C2 K2 ltac:(rewrite R2; now apply bytes_ok_skipn) T L2) as (rs & rest & s' & F & Run & R' & C' & K').
      exists (r :: rs), rest, s'. split; [|split; [|auto]].
      * intros fuel Hf. destruct fuel as [|fuel]; [lia|]. cbn [UnicodeRange]. rewrite E, Tr. unfold bind. rewrite E2, F by lia.
        now rewrite <- app_assoc.
      * eapply run_step; eauto. rewrite <- R2. exact Run.
    + exists [], (remaining s), s1. split; [|split; [|auto]].
      * intros fuel Hf. destruct fuel as [|fuel]; [lia|]. cbn [UnicodeRange]. rewrite E, Tr. now rewrite app_nil_r.
      * eapply run_stop; eauto. congruence.
Qed.

(** Total width of a run. *)
Lemma rune_run_suffix : forall P s rs rest, rune_run P s rs rest -> exists p, s = p ++ rest.
Proof.
  induction 1 as [|s r n N D _|s r n rs rest N D _ _ (p & IH)]; [exists []; auto|exists []; auto|].
  exists (firstn (Z.to_nat n) s ++ p). rewrite <- app_assoc, <- IH. symmetry. apply firstn_skipn.
Qed.

Lemma SkipUnicodeRange_spec : forall (t : table) m s count, clean s -> compact s -> bytes_ok (remaining s) ->
  t RuneError = false -> (List.length (remaining s) < m)%nat ->
  exists rs rest s', (forall fuel, (m <= fuel)%nat ->
      SkipUnicodeRange fuel count t s = Ok (count + (lenZ (remaining s) - lenZ rest)) s') /\
    rune_run (fun r => t r = true) (remaining s) rs rest /\ remaining s' = rest /\ clean s' /\ compact s'.
Proof.
  intros t. induction m as [|m IH]; intros s count Hc Hk B T L; [lia|].
  destruct (remaining s) as [|c0 r0] eqn:R.
  - exists [], [], s. split; [|split; [constructor|auto]]. intros fuel Hf. destruct fuel as [|fuel]; [lia|].
    cbn [SkipUnicodeRange]. rewrite (peek_end s R), T. f_equal. cbn. lia.
  - assert (Hn : remaining s <> []) by (rewrite R; discriminate). rewrite <- R in *.
    destruct (peek_consume s Hc Hk Hn B) as (r & n & s1 & E & D & R1 & C1 & K1 & En1 & Er1 & s2 & E2 & R2 & C2 & K2 & En2 & Er2).
    destruct (t r) eqn:Tr.
    + assert (W := decodes_width _ _ _ Hn D).
      assert (L2 : (List.length (remaining s2) < m)%nat) by (rewrite R2, skipn_length; lia).
      destruct (IH s2 (count + n) C2 K2 ltac:(rewrite R2; now apply bytes_ok_skipn) T L2) as (rs & rest & s' & F & Run & R' & C' & K').
      exists (r :: rs), rest, s'. split; [|split; [|auto]].
      * intros fuel Hf. destruct fuel as [|fuel]; [lia|]. cbn [SkipUnicodeRange]. rewrite E, Tr. unfold bind. rewrite E2, F by lia.
        f_equal. rewrite R2. unfold lenZ. rewrite skipn_length. lia.
      * eapply run_step; eauto. rewrite <- R2. exact Run.
    + exists [], (remaining s), s1. split; [|split; [|auto]].
      * intros fuel Hf. destruct fuel as [|fuel]; [lia|]. cbn [SkipUnicodeRange]. rewrite E, Tr. f_equal. lia.
      * eapply run_stop; eauto. congruence.
Qed.

Lemma UnicodeSpace_spec : forall m s count, clean s -> compact s -> bytes_ok (remaining s) ->
  s_err s = None -> (List.length (remaining s) < m)%nat ->
  exists rs rest s', (forall fuel, (m <= fuel)%nat ->
      UnicodeSpace fuel count s = Ok (count + (lenZ (remaining s) - lenZ rest)) s') /\
    rune_run (fun r => unicodeIsSpace r = true) (remaining s) rs rest /\ remaining s' = rest /\ clean s' /\ compact s'.
Proof.
  induction m as [|m IH]; intros s count Hc Hk B Er L; [lia|].
  destruct (remaining s) as [|c0 r0] eqn:R.
  - exists [], [], s. split; [|split; [constructor|auto]]. intros fuel Hf. destruct fuel as [|fuel]; [lia|].
    cbn [UnicodeSpace]. rewrite Er, (peek_end s R). cbn -[Z.add]. f_equal. cbn. lia.
  - assert (Hn : remaining s <> []) by (rewrite R; discriminate). rewrite <- R in *.
    destruct (peek_consume s Hc Hk Hn B) as (r & n & s1 & E & D & R1 & C1 & K1 & En1 & Er1 & s2 & E2 & R2 & C2 & K2 & En2 & Er2).
    destruct (unicodeIsSpace r) eqn:Tr.
    + assert (W := decodes_width _ _ _ Hn D).
      assert (L2 : (List.length (remaining s2) < m)%nat) by (rewrite R2, skipn_length; lia).
      destruct Er2 as [Er2|[Rn Er2]].
      * rewrite Er in Er2. destruct (IH s2 (count + n) C2 K2 ltac:(rewrite R2; now apply bytes_ok_skipn) Er2 L2) as (rs & rest & s' & F & Run & R' & C' & K').
        exists (r :: rs), rest, s'. split; [|split; [|auto]].
        -- intros fuel Hf. destruct fuel as [|fuel]; [lia|]. cbn [UnicodeSpace]. rewrite Er, E, Tr. unfold bind. rewrite E2, F by lia.
           f_equal. rewrite R2. unfold lenZ. rewrite skipn_length. lia.
        -- eapply run_step; eauto. rewrite <- R2. exact Run.
      * exists [r], [], s2. split; [|split; [|auto]].
        -- intros fuel Hf. destruct fuel as [|fuel]; [lia|]. cbn [UnicodeSpace]. rewrite Er, E, Tr. unfold bind. rewrite E2.
           destruct fuel as [|fuel]; [lia|]. cbn [UnicodeSpace]. rewrite Er2, Er. cbn [or_else]. f_equal.
           rewrite R2 in Rn. apply (f_equal (@List.length Z)) in Rn. rewrite skipn_length in Rn. cbn [List.length] in Rn. unfold lenZ. cbn [List.length]. lia.
        -- eapply run_step; eauto. rewrite <- R2, Rn. constructor.
    + exists [], (remaining s), s1. split; [|split; [|auto]].
      * intros fuel Hf. destruct fuel as [|fuel]; [lia|]. cbn [UnicodeSpace]. rewrite Er, E, Tr. f_equal. lia.
      * eapply run_stop; eauto. congruence.
Qed.

Lemma UnicodeRanges_excl : forall (excl : list table) m s space, clean s -> compact s -> bytes_ok (remaining s) ->
  (List.length (remaining s) < m)%nat ->
  exists rs rest, rune_run (fun r => existsb (fun t : table => t r) excl = false) (remaining s) rs rest /\
    (rest <> [] \/ existsb (fun t : table => t RuneError) excl = true ->
     exists s', (forall fuel, (m <= fuel)%nat -> UnicodeRanges fuel space [] excl s = Ok (space ++ rs) s') /\
       remaining s' = rest /\ clean s' /\ compact s') /\
    (rest = [] -> existsb (fun t : table => t RuneError) excl = false ->
     forall fuel, UnicodeRanges fuel space [] excl s = OutOfFuel).
Proof.
  intros excl. induction m as [|m IH]; intros s space Hc Hk B L; [lia|].
  destruct (remaining s) as [|c0 r0] eqn:R.
  - exists [], []. split; [constructor|]. split.
    + intros [N|X]; [congruence|]. exists s. split; [|auto]. intros fuel Hf. destruct fuel as [|fuel]; [lia|].
      cbn [UnicodeRanges]. rewrite (peek_end s R), X. now rewrite app_nil_r.
    + intros _ X [|fuel]; [reflexivity|]. cbn [UnicodeRanges]. rewrite (peek_end s R), X. unfold bind, ConsumeN.
      rewrite consumeLoop_short; auto. rewrite R. cbn. lia.
  - assert (Hn : remaining s <> []) by (rewrite R; discriminate). rewrite <- R in *.
    destruct (peek_consume s Hc Hk Hn B) as (r & n & s1 & E & D & R1 & C1 & K1 & En1 & Er1 & s2 & E2 & R2 & C2 & K2 & En2 & Er2).
    destruct (existsb (fun t : table => t r) excl) eqn:Tr.
    + exists [], (remaining s). split; [eapply run_stop; eauto; congruence|]. split; [|congruence].
      intros _. exists s1. split; [|auto]. intros fuel Hf. destruct fuel as [|fuel]; [lia|]. cbn [UnicodeRanges]. rewrite E, Tr. now rewrite app_nil_r.
    + assert (W := decodes_width _ _ _ Hn D).
      assert (L2 : (List.length (remaining s2) < m)%nat) by (rewrite R2, skipn_length; lia).
      destruct (IH s2 (space ++ [r]) C2 K2 ltac:(rewrite R2; now apply bytes_ok_skipn) L2) as (rs & rest & Run & F1 & F2).
      exists (r :: rs), rest. split; [eapply run_step; eauto; rewrite <- R2; exact Run|]. split.
      * intros X. destruct (F1 X) as (s' & F & H). exists s'. split; [|auto]. intros fuel Hf. destruct fuel as [|fuel]; [lia|].
        cbn [UnicodeRanges]. rewrite E, Tr. unfold bind. rewrite E2, F by lia. now rewrite <- app_assoc.
      * intros X Y [|fuel]; [reflexivity|]. cbn [UnicodeRanges]. rewrite E, Tr. unfold bind. rewrite E2. now apply F2.
Qed.

Lemma UnicodeRange_as_excl : forall fuel space (t : table) s,
  UnicodeRange fuel space t s = UnicodeRanges fuel space [] [fun r => negb (t r)] s.
Proof.
  induction fuel as [|fuel IH]; intros space t s; cbn [UnicodeRange UnicodeRanges]; [reflexivity|].
  destruct (PeekRune s) as [[r n] s1]. cbn [existsb]. rewrite orb_false_r. destruct (t r); cbn [negb]; [|reflexivity].
  unfold bind. destruct (ConsumeN (Z.to_nat n) s1); auto.
Qed.

Lemma rune_run_ext : forall (P Q : Z -> Prop) s rs rest, (forall r, P r <-> Q r) -> rune_run P s rs rest -> rune_run Q s rs rest.
Proof.
  intros P Q s rs rest E. induction 1; [constructor|eapply run_stop; eauto; rewrite <- E; auto|eapply run_step; eauto; now apply E].
Qed.

(** What the loop over [includes] does. *)
Lemma includesLoop_spec : forall incl r n space s, clean s -> 0 <= n ->
  if (matching incl r * Z.to_nat n <=? List.length (remaining s))%nat then
    exists s', includesLoop space incl r n s = Ok (space ++ repeat r (matching incl r)) s' /\
      remaining s' = skipn (matching incl r * Z.to_nat n) (remaining s) /\ clean s' /\ (compact s -> compact s')
  else includesLoop space incl r n s = OutOfFuel.
Proof.
  induction incl as [|t incl IH]; intros r n space s C Hn.
  - cbn. exists s. rewrite app_nil_r. auto.
  - unfold matching. cbn [filter includesLoop]. destruct (t r).
    + cbn [List.length]. fold (matching incl r). cbn [Nat.mul]. destruct (le_lt_dec (Z.to_nat n) (List.length (remaining s))) as [L|L].
      * destruct (ConsumeN_ok (Z.to_nat n) s C L) as (s1 & E1 & R1 & C1 & _ & K1 & _).
        specialize (IH r n (space ++ [r]) s1 C1 Hn). rewrite R1, skipn_length in IH. unfold bind. rewrite E1.
        destruct (Nat.leb_spec (matching incl r * Z.to_nat n) (List.length (remaining s) - Z.to_nat n)) as [L2|L2];
        destruct (Nat.leb_spec (Z.to_nat n + matching incl r * Z.to_nat n) (List.length (remaining s))) as [L3|L3]; try lia.
        -- destruct IH as (s' & E & R & C' & K'). exists s'. rewrite E. split; [now rewrite <- app_assoc|]. split; [|auto].
           rewrite R. clear. revert n. intros n. generalize (remaining s). intros l.
           rewrite Nat.add_comm. generalize (matching incl r * Z.to_nat n)%nat. generalize (Z.to_nat n). intros a b.
           revert l. induction a as [|a IHa]; intros l; [now rewrite Nat.add_0_r|]. destruct l; [now rewrite !skipn_nil|].
           rewrite Nat.add_succ_r. cbn [skipn]. apply IHa.
        -- exact IH.
      * destruct (Nat.leb_spec (Z.to_nat n + matching incl r * Z.to_nat n) (List.length (remaining s))) as [L3|L3]; [lia|].
        unfold bind, ConsumeN. now rewrite consumeLoop_short.
    + fold (matching incl r). now apply IH.
Qed.

Lemma skipIncludes_as : forall incl r n space count s,
  skipIncludesLoop count incl r n s =
  match includesLoop space incl r n s with
  | Ok rs s' => Ok (count + (lenZ rs - lenZ space) * n) s' | Panic => Panic | OutOfFuel => OutOfFuel
  end.
Proof.
  induction incl as [|t incl IH]; intros r n space count s; cbn [includesLoop skipIncludesLoop].
  - unfold ret. f_equal. lia.
  - destruct (t r).
    + unfold bind. destruct (ConsumeN (Z.to_nat n) s) as [u s1| |]; auto. rewrite (IH r n (space ++ [r])).
      destruct (includesLoop (space ++ [r]) incl r n s1); auto. f_equal. unfold lenZ. rewrite app_length. cbn [List.length]. lia.
    + apply IH.
Qed.
