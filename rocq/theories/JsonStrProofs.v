From Verif Require Import Base JsonIntModel JsonStrModel JsonStrSpec.

(** * Fast loop *)
Definition plain (c : Z) : bool := (31 <? c) && negb (c =? 34) && negb (c =? 92).

Lemma fastLoop_spec : forall ok s space i idx,
  (exists p c r, s = p ++ c :: r /\ forallb ok p = true /\ ok c = false /\
     fastLoop ok space i idx s = (space ++ p, idx + lenZ p)) \/
  (forallb ok s = true /\
     fastLoop ok space i idx s = (space ++ s, match s with [] => i | _ => idx + lenZ s - 1 end)).
Proof.
  induction s as [|c s IH]; intros space i idx.
  - right. cbn. now rewrite app_nil_r.
  - cbn [fastLoop]. destruct (ok c) eqn:E.
    + destruct (IH (space ++ [c]) idx (idx + 1)) as [(p & d & r & -> & Hp & Hd & F)|[Hs F]].
      * left. exists (c :: p), d, r. cbn [forallb]. rewrite E, Hp.
        repeat split; auto. rewrite F, <- app_assoc. cbn [app]. f_equal.
        unfold lenZ. cbn [List.length]. lia.
      * right. cbn [forallb]. rewrite E, Hs. split; auto.
        rewrite F, <- app_assoc. cbn [app]. f_equal.
        destruct s; unfold lenZ; cbn [List.length]; lia.
    + left. exists [], c, s. cbn. rewrite app_nil_r. repeat split; auto. f_equal. unfold lenZ; cbn; lia.
Qed.

Lemma slice_tail : forall {A} (p r : list A), slice (p ++ r) (lenZ p) (lenZ (p ++ r)) = r.
Proof.
  intros. unfold slice, lenZ. rewrite app_length, Nat2Z.id.
  rewrite skipn_app, skipn_all, Nat.sub_diag. cbn [skipn app].
  apply firstn_all2. lia.
Qed.

Lemma slice_mid : forall {A} (p m r : list A), slice (p ++ m ++ r) (lenZ p) (lenZ p + lenZ m) = m.
Proof.
  intros. unfold slice, lenZ. rewrite Nat2Z.id.
  rewrite skipn_app, skipn_all, Nat.sub_diag. cbn [skipn app].
  replace (Z.to_nat _) with (List.length m + 0)%nat by lia.
  rewrite firstn_app_2. cbn. now rewrite app_nil_r.
Qed.

Lemma lenZ_app : forall {A} (a b : list A), lenZ (a ++ b) = lenZ a + lenZ b.
Proof. intros; unfold lenZ; rewrite app_length; lia. Qed.
Lemma lenZ_cons : forall {A} (a : A) b, lenZ (a :: b) = 1 + lenZ b.
Proof. intros; unfold lenZ; cbn [List.length]; lia. Qed.
Lemma lenZ_nil : forall {A}, lenZ (@nil A) = 0. Proof. reflexivity. Qed.
Lemma lenZ_nonneg : forall {A} (a : list A), 0 <= lenZ a. Proof. intros; unfold lenZ; lia. Qed.
Lemma lenZ_pos_nil : forall {A} (a : list A), lenZ a <= 0 -> a = [].
Proof. intros A [|]; auto. rewrite lenZ_cons. pose proof (lenZ_nonneg l); lia. Qed.

(** * Slow path of strings *)
Definition encStr (b : Z) : bytes := if (128 <=? b) || safeSet b then [b] else escStr b.

(** Flushing [s[start:i]]: conditional append equals unconditional append of the pending part. *)
Lemma flush : forall (done pend rest space : bytes),
  (if lenZ done <? lenZ done + lenZ pend
   then space ++ slice (done ++ pend ++ rest) (lenZ done) (lenZ done + lenZ pend) else space)
  = space ++ pend.
Proof.
  intros. rewrite slice_mid. destruct (_ <? _) eqn:E; auto.
  rewrite (lenZ_pos_nil pend) by lia. now rewrite app_nil_r.
Qed.

Lemma strSlowLoop_spec : forall rest s space done pend,
  s = done ++ pend ++ rest ->
  let '(sp, st) := strSlowLoop s space (lenZ done) (lenZ done + lenZ pend) rest in
  (if st <? lenZ s then sp ++ slice s st (lenZ s) else sp) = space ++ pend ++ flat_map encStr rest.
Proof.
  induction rest as [|b r IH]; intros s space done pend ->; cbn [strSlowLoop].
  - cbn [flat_map]. rewrite !lenZ_app, lenZ_nil, Z.add_0_r, flush.
    rewrite app_nil_r. reflexivity.
  - cbn [flat_map]. unfold encStr at 1.
    destruct (128 <=? b) eqn:E1; [|destruct (safeSet b) eqn:E2]; cbn [orb].
    + specialize (IH (done ++ pend ++ b :: r) space done (pend ++ [b])).
      rewrite lenZ_app, lenZ_cons, lenZ_nil, Z.add_0_r, Z.add_assoc in IH.
      specialize (IH ltac:(rewrite <- !app_assoc; reflexivity)).
      destruct (strSlowLoop _ _ _ _ _). rewrite IH, <- !app_assoc. reflexivity.
    + specialize (IH (done ++ pend ++ b :: r) space done (pend ++ [b])).
      rewrite lenZ_app, lenZ_cons, lenZ_nil, Z.add_0_r, Z.add_assoc in IH.
      specialize (IH ltac:(rewrite <- !app_assoc; reflexivity)).
      destruct (strSlowLoop _ _ _ _ _). rewrite IH, <- !app_assoc. reflexivity.
    + rewrite flush.
      specialize (IH (done ++ pend ++ b :: r) ((space ++ pend) ++ escStr b) (done ++ pend ++ [b]) []).
      rewrite !lenZ_app, lenZ_cons, !lenZ_nil, !Z.add_0_r, Z.add_assoc in IH.
      specialize (IH ltac:(rewrite <- !app_assoc; reflexivity)).
      destruct (strSlowLoop _ _ _ _ _).
      rewrite !lenZ_app. rewrite IH, <- !app_assoc. reflexivity.
Qed.

Lemma slowStr_spec : forall space s,
  writeStringSlowPath space s = space ++ flat_map encStr s ++ [34].
Proof.
  intros. unfold writeStringSlowPath.
  pose proof (strSlowLoop_spec s s space [] [] eq_refl) as H. cbn [lenZ] in H.
  change (lenZ [] + lenZ []) with 0 in H. change (@lenZ Z []) with 0 in H.
  destruct (strSlowLoop _ _ _ _ _) as [sp st]. rewrite H. cbn [app]. now rewrite <- app_assoc.
Qed.

(** * Reading escapes back *)
Lemma prepend_prepend : forall a b o, prepend a (prepend b o) = prepend (a ++ b) o.
Proof. intros a b [[y r]|]; cbn; auto. now rewrite app_assoc. Qed.

Lemma body_plain : forall c r, plain c = true -> string_body (c :: r) = prepend [c] (string_body r).
Proof.
  intros c r H. unfold plain in H. cbn [string_body].
  destruct (c =? 34) eqn:E1; [apply andb_true_iff in H as [H _]; apply andb_true_iff in H as [_ H]; discriminate|].
  destruct (c =? 92) eqn:E2; [apply andb_true_iff in H as [_ H]; discriminate|].
  destruct (c <? 32) eqn:E3; [apply andb_true_iff in H as [H _]; apply andb_true_iff in H as [H _]; lia|].
  reflexivity.
Qed.

Lemma body_plains : forall p r, forallb plain p = true -> string_body (p ++ r) = prepend p (string_body r).
Proof.
  induction p as [|c p IH]; intros r H.
  - cbn. destruct (string_body r) as [[]|]; reflexivity.
  - cbn [forallb] in H. apply andb_true_iff in H as [H1 H2]. cbn [app].
    rewrite body_plain, IH, prepend_prepend by auto. reflexivity.
Qed.

Lemma escStr_cases : forallb (fun b => if safeSet b then true else
   match string_body (escStr b ++ [34]) with Some ([x], []) => x =? b | _ => false end) (zseq 128) = true.
Proof. vm_compute. reflexivity. Qed.

Lemma hexAt_digit : forall i, 0 <= i < 16 -> hex_digit (hexAt i) = Some i.
Proof.
  intros i Hi.
  assert (H : forallb (fun i => match hex_digit (hexAt i) with Some j => j =? i | None => false end) (zseq 16) = true) by (vm_compute; reflexivity).
  pose proof (forall_below 16 _ H i Hi) as K. cbv beta in K.
  destruct (hex_digit (hexAt i)); [|discriminate]. apply Z.eqb_eq in K. now subst.
Qed.

Lemma nibbles : forall b, 0 <= b < 256 ->
  0 <= Z.shiftr b 4 < 16 /\ 0 <= Z.land b 15 < 16 /\ 16 * Z.shiftr b 4 + Z.land b 15 = b.
Proof.
  intros b Hb. rewrite Z.shiftr_div_pow2 by lia.
  change 15 with (Z.ones 4). rewrite Z.land_ones by lia. change (2^4) with 16.
  pose proof (Z.div_mod b 16 ltac:(lia)). pose proof (Z.mod_pos_bound b 16 ltac:(lia)).
  assert (b / 16 < 16) by (apply Z.div_lt_upper_bound; lia).
  assert (0 <= b / 16) by (apply Z.div_pos; lia). lia.
Qed.

Lemma body_escStr : forall b r, 0 <= b < 128 -> safeSet b = false ->
  string_body (escStr b ++ r) = prepend [b] (string_body r).
Proof.
  intros b r Hb Hs.
  unfold escStr.
  destruct (b =? 92) eqn:E1; [apply Z.eqb_eq in E1; subst; reflexivity|].
  destruct (b =? 34) eqn:E2; [apply Z.eqb_eq in E2; subst; reflexivity|]. cbn [orb].
  destruct (b =? 10) eqn:E3; [apply Z.eqb_eq in E3; subst; reflexivity|].
  destruct (b =? 13) eqn:E4; [apply Z.eqb_eq in E4; subst; reflexivity|].
  destruct (b =? 9) eqn:E5; [apply Z.eqb_eq in E5; subst; reflexivity|].
  assert (b < 32).
  { unfold safeSet in Hs. rewrite E1, E2 in Hs. cbn [negb] in Hs. rewrite !andb_true_r in Hs.
    apply andb_false_iff in Hs as [Hs|Hs]; lia. }
  pose proof (nibbles b ltac:(lia)) as (N1 & N2 & N3).
  assert (Z.shiftr b 4 < 2) by lia.
  cbn [app string_body]. cbn [Z.eqb Pos.eqb].
  unfold hex4. rewrite !hexAt_digit by lia.
  change (hex_digit 48) with (Some 0). cbv beta iota.
  replace (4096 * 0 + 256 * 0 + 16 * Z.shiftr b 4 + Z.land b 15) with b by lia.
  replace (55296 <=? b) with false by lia. replace (56320 <=? b) with false by lia. cbn [andb].
  unfold utf8. replace (b <? 128) with true by lia. reflexivity.
Qed.

Lemma body_encStr : forall s r, bytes_ok s -> string_body (flat_map encStr s ++ r) = prepend s (string_body r).
Proof.
  induction s as [|b s IH]; intros r H; inversion H; subst.
  - cbn. destruct (string_body r) as [[]|]; reflexivity.
  - cbn [flat_map]. rewrite <- app_assoc. unfold encStr at 1.
    destruct ((128 <=? b) || safeSet b) eqn:E.
    + cbn [app]. rewrite body_plain.
      * rewrite IH by auto. rewrite prepend_prepend. reflexivity.
      * unfold plain, safeSet in *. red in H2. destruct (128 <=? b) eqn:E1.
        -- replace (31 <? b) with true by lia. replace (b =? 34) with false by lia.
           replace (b =? 92) with false by lia. reflexivity.
        -- cbn [orb] in E. apply andb_true_iff in E as [E E4]. apply andb_true_iff in E as [E E3].
           apply andb_true_iff in E as [E E2]. rewrite E3, E4. replace (31 <? b) with true by lia. reflexivity.
    + apply orb_false_iff in E as [E1 E2]. red in H2. rewrite body_escStr by (auto; lia).
      rewrite IH by auto. rewrite prepend_prepend. reflexivity.
Qed.

(** * WriteString *)

(** The inputs that lose their last byte. *)
Definition first_escape_is_last (s : bytes) : Prop :=
  exists p c, s = p ++ [c] /\ forallb plain p = true /\ plain c = false.

Lemma WriteString_spec : forall space s, bytes_ok s ->
  (first_escape_is_last s /\ WriteString space s = space ++ [34] ++ removelast s ++ [34]) \/
  (~ first_escape_is_last s /\ exists body, WriteString space s = space ++ [34] ++ body ++ [34] /\
    forall r, string_body (body ++ [34] ++ r) = Some (s, r)).
Proof.
  intros space s Hs. unfold WriteString.
  destruct (fastLoop_spec plain s (space ++ [34]) 0 0) as [(p & c & r & E & Hp & Hc & F)|[Hp F]];
  unfold plain in F at 1; rewrite F; clear F.
  - rewrite Z.add_0_l. destruct r as [|d r].
    + left. split; [exists p, c; auto|]. rewrite E, lenZ_app.
      change (lenZ [c]) with 1. replace (lenZ p =? lenZ p + 1 - 1) with true by lia.
      rewrite removelast_last, <- !app_assoc. reflexivity.
    + right. split.
      * intros (p' & c' & E' & Hp' & Hc'). rewrite E in E'.
        assert (L : forall q a t q' a', q ++ a :: t = q' ++ [a'] -> forallb plain q' = true ->
                  plain a = false -> t = []).
        { induction q as [|x q IH]; intros a t q' a' EE Q A.
          - destruct q' as [|y q']; cbn in *; injection EE as -> ->; auto.
            cbn in Q. rewrite A in Q. discriminate.
          - destruct q' as [|y q']; cbn in EE; injection EE as -> EE.
            + destruct q; discriminate.
            + cbn in Q. apply andb_true_iff in Q as [_ Q]. eapply IH; eauto. }
        now specialize (L _ _ _ _ _ E' Hp' Hc).
      * exists (p ++ flat_map encStr (c :: d :: r)). split.
        { replace (lenZ p =? lenZ s - 1) with false.
          - rewrite E, slice_tail, slowStr_spec, <- !app_assoc. reflexivity.
          - rewrite E, lenZ_app, !lenZ_cons. pose proof (lenZ_nonneg r). lia. }
        intros t. rewrite <- app_assoc, body_plains by auto.
        rewrite body_encStr.
        -- cbn [app string_body Z.eqb Pos.eqb prepend]. rewrite app_nil_r, E. reflexivity.
        -- rewrite E in Hs. apply Forall_app in Hs as [_ Hs]. exact Hs.
  - right. split.
    + intros (p' & c' & E' & Hp' & Hc'). rewrite E', forallb_app in Hp. cbn [forallb] in Hp.
      rewrite Hc', andb_false_r in Hp. discriminate.
    + destruct s as [|c s].
      * exists []. cbn [lenZ List.length Z.of_nat]. split.
        -- change (0 =? 0 - 1) with false. cbv iota. change (slice [] 0 0) with (@nil Z).
           rewrite slowStr_spec. cbn [flat_map app]. now rewrite <- !app_assoc.
        -- reflexivity.
      * exists (c :: s). rewrite Z.add_0_l. split.
        -- rewrite Z.eqb_refl. now rewrite <- !app_assoc.
        -- intros r. rewrite body_plains by auto. cbn. now rewrite app_nil_r.
Qed.

Lemma json_string_quote : forall t, json_string (34 :: t) = string_body t.
Proof. reflexivity. Qed.

Lemma WriteString_roundtrip_iff : forall space s, bytes_ok s ->
  ((exists t, WriteString space s = space ++ t /\ json_string t = Some (s, [])) <->
   ~ first_escape_is_last s).
Proof.
  intros space s Hs. destruct (WriteString_spec space s Hs) as [[L E]|[L (b & E & D)]].
  - split; [|tauto]. intros (t & E' & J) _.
    rewrite E in E'. apply app_inv_head in E'. subst t.
    destruct L as (p & c & -> & Hp & Hc). rewrite removelast_last in J.
    change ([34] ++ p ++ [34]) with (34 :: p ++ [34]) in J. rewrite json_string_quote in J.
    rewrite body_plains in J by auto. cbn in J. rewrite app_nil_r in J.
    injection J as J. apply (f_equal (@List.length Z)) in J. rewrite app_length in J. cbn in J. lia.
  - split; auto. intros _. eexists; split; [exact E|]. change ([34] ++ b ++ [34]) with (34 :: b ++ [34]).
    rewrite json_string_quote. apply (D []).
Qed.

Lemma WriteString_decodes : forall space s, bytes_ok s ->
  exists t u, WriteString space s = space ++ t /\
    forall r, json_string (t ++ r) = Some (u, r) /\
    (~ first_escape_is_last s /\ u = s \/ first_escape_is_last s /\ u = removelast s).
Proof.
  intros space s Hs. destruct (WriteString_spec space s Hs) as [[L E]|[L (b & E & D)]].
  - exists ([34] ++ removelast s ++ [34]), (removelast s). split; auto.
    intros r. split; [|right; auto]. cbn [app]. rewrite json_string_quote.
    destruct L as (p & c & -> & Hp & Hc). rewrite removelast_last, <- app_assoc, body_plains by auto.
    cbn. now rewrite app_nil_r.
  - exists ([34] ++ b ++ [34]), s. split; auto. intros r. split; [|left; auto].
    cbn [app]. rewrite json_string_quote, <- app_assoc. apply D.
Qed.

(** * Slow path of byte slices *)
Definition xesc (b : Z) : bytes := [92; 92; 120; hexAt (Z.shiftr b 4); hexAt (Z.land b 15)].

(** What the slow path emits, given the pending (not yet flushed) bytes. *)
Fixpoint slowB (pend rest : bytes) : bytes :=
  match rest with
  | [] => pend
  | b :: r =>
    if 128 <=? b then xesc b ++ slowB [] r
    else if safeSet b then slowB (pend ++ [b]) r
    else pend ++ escBytes b ++ slowB [] r
  end.

Lemma bytesSlowLoop_spec : forall rest s space done pend,
  s = done ++ pend ++ rest ->
  let '(sp, st) := bytesSlowLoop s space (lenZ done) (lenZ done + lenZ pend) rest in
  (if st <? lenZ s then sp ++ slice s st (lenZ s) else sp) = space ++ slowB pend rest.
Proof.
  induction rest as [|b r IH]; intros s space done pend ->; cbn [bytesSlowLoop slowB].
  - rewrite !lenZ_app, lenZ_nil, Z.add_0_r, flush. reflexivity.
  - destruct (128 <=? b) eqn:E1; [|destruct (safeSet b) eqn:E2].
    + specialize (IH (done ++ pend ++ b :: r) (space ++ xesc b) (done ++ pend ++ [b]) []).
      rewrite !lenZ_app, lenZ_cons, !lenZ_nil, !Z.add_0_r, Z.add_assoc in IH.
      specialize (IH ltac:(rewrite <- !app_assoc; reflexivity)).
      unfold xesc in IH at 1.
      destruct (bytesSlowLoop _ _ _ _ _).
      rewrite !lenZ_app. rewrite IH, <- !app_assoc. reflexivity.
    + specialize (IH (done ++ pend ++ b :: r) space done (pend ++ [b])).
      rewrite lenZ_app, lenZ_cons, lenZ_nil, Z.add_0_r, Z.add_assoc in IH.
      specialize (IH ltac:(rewrite <- !app_assoc; reflexivity)).
      destruct (bytesSlowLoop _ _ _ _ _). exact IH.
    + rewrite flush.
      specialize (IH (done ++ pend ++ b :: r) ((space ++ pend) ++ escBytes b) (done ++ pend ++ [b]) []).
      rewrite !lenZ_app, lenZ_cons, !lenZ_nil, !Z.add_0_r, Z.add_assoc in IH.
      specialize (IH ltac:(rewrite <- !app_assoc; reflexivity)).
      destruct (bytesSlowLoop _ _ _ _ _).
      rewrite !lenZ_app. rewrite IH, <- !app_assoc. reflexivity.
Qed.

Lemma slowBytes_spec : forall space s,
  writeBytesSlowPath space s = space ++ slowB [] s ++ [34].
Proof.
  intros. unfold writeBytesSlowPath.
  pose proof (bytesSlowLoop_spec s s space [] [] eq_refl) as H.
  change (lenZ [] + lenZ []) with 0 in H. change (@lenZ Z []) with 0 in H.
  destruct (bytesSlowLoop _ _ _ _ _) as [sp st]. rewrite H. now rewrite <- app_assoc.
Qed.

(** What a reader gets back from the slow path. *)
Definition shown (b : Z) : bytes :=
  if shown_as_is b then [b] else [92; 120; hexchar (b / 16); hexchar (b mod 16)].

Fixpoint readB (pend rest : bytes) : bytes :=
  match rest with
  | [] => pend
  | b :: r =>
    if 128 <=? b then shown b ++ readB [] r
    else if safeSet b then readB (pend ++ [b]) r
    else pend ++ shown b ++ readB [] r
  end.

Lemma hexAt_hexchar : forall i, 0 <= i < 16 -> hexAt i = hexchar i.
Proof.
  intros i Hi.
  assert (H : forallb (fun i => hexAt i =? hexchar i) (zseq 16) = true) by (vm_compute; reflexivity).
  pose proof (forall_below 16 _ H i Hi) as K. now apply Z.eqb_eq in K.
Qed.

Lemma hexchar_plain : forall i, 0 <= i < 16 -> plain (hexchar i) = true.
Proof.
  intros i Hi.
  assert (H : forallb (fun i => plain (hexchar i)) (zseq 16) = true) by (vm_compute; reflexivity).
  exact (forall_below 16 _ H i Hi).
Qed.

Lemma nibble_div : forall b, 0 <= b < 256 ->
  Z.shiftr b 4 = b / 16 /\ Z.land b 15 = b mod 16 /\ 0 <= b / 16 < 16 /\ 0 <= b mod 16 < 16.
Proof.
  intros b Hb. pose proof (nibbles b Hb) as (N1 & N2 & _).
  rewrite Z.shiftr_div_pow2 in * by lia.
  change 15 with (Z.ones 4) in *. rewrite Z.land_ones in * by lia. change (2^4) with 16 in *. auto.
Qed.

Lemma body_xesc : forall b r, 0 <= b < 256 ->
  string_body (xesc b ++ r) = prepend [92; 120; hexchar (b / 16); hexchar (b mod 16)] (string_body r).
Proof.
  intros b r Hb. destruct (nibble_div b Hb) as (N1 & N2 & N3 & N4).
  unfold xesc. rewrite N1, N2, !hexAt_hexchar by auto.
  change (string_body ([92; 92; 120; hexchar (b / 16); hexchar (b mod 16)] ++ r))
    with (prepend [92] (string_body ([120; hexchar (b / 16); hexchar (b mod 16)] ++ r))).
  rewrite body_plains.
  - apply prepend_prepend.
  - cbn [forallb]. rewrite !hexchar_plain by auto. reflexivity.
Qed.

Lemma safe_plain : forall b, safeSet b = true -> plain b = true.
Proof.
  intros b H. unfold safeSet, plain in *.
  apply andb_true_iff in H as [H H4]. apply andb_true_iff in H as [H H3].
  apply andb_true_iff in H as [H H2]. rewrite H3, H4. replace (31 <? b) with true by lia. reflexivity.
Qed.

Lemma body_escBytes : forall b r, 0 <= b < 128 -> safeSet b = false ->
  string_body (escBytes b ++ r) = prepend (shown b) (string_body r).
Proof.
  intros b r Hb Hs.
  unfold escBytes.
  destruct (b =? 92) eqn:E1; [apply Z.eqb_eq in E1; subst; reflexivity|].
  destruct (b =? 34) eqn:E2; [apply Z.eqb_eq in E2; subst; reflexivity|]. cbn [orb].
  destruct (b =? 10) eqn:E3; [apply Z.eqb_eq in E3; subst; reflexivity|].
  destruct (b =? 13) eqn:E4; [apply Z.eqb_eq in E4; subst; reflexivity|].
  destruct (b =? 9) eqn:E5; [apply Z.eqb_eq in E5; subst; reflexivity|].
  assert (b < 32).
  { unfold safeSet in Hs. rewrite E1, E2 in Hs. cbn [negb] in Hs. rewrite !andb_true_r in Hs.
    apply andb_false_iff in Hs as [Hs|Hs]; lia. }
  unfold shown, shown_as_is. rewrite E3, E4, E5. replace (32 <=? b) with false by lia.
  cbn [orb]. rewrite andb_false_r.
  apply body_xesc. lia.
Qed.

Lemma body_slowB : forall rest pend r, bytes_ok rest -> forallb safeSet pend = true ->
  string_body (slowB pend rest ++ [34] ++ r) = Some (readB pend rest, r).
Proof.
  assert (P : forall pend, forallb safeSet pend = true -> forallb plain pend = true).
  { intros pend H. rewrite forallb_forall in *. auto using safe_plain. }
  induction rest as [|b rest IH]; intros pend r H Hp; inversion H as [|? ? Hb Hr]; subst.
  - cbn [slowB readB]. rewrite body_plains by auto. cbn. now rewrite app_nil_r.
  - cbn [slowB readB]. red in Hb. destruct (128 <=? b) eqn:E1; [|destruct (safeSet b) eqn:E2].
    + rewrite <- app_assoc, body_xesc, IH by auto. unfold shown, shown_as_is.
      replace (b <? 128) with false by lia. reflexivity.
    + apply IH; auto. rewrite forallb_app, Hp. cbn. now rewrite E2.
    + rewrite <- !app_assoc, body_plains, body_escBytes, IH by (auto; lia). reflexivity.
Qed.

(** What a reader gets back from the whole writer. *)
Definition okB (c : Z) : bool := (c <? 128) && safeSet c.

Lemma okB_safe : forall c, okB c = safeSet c.
Proof.
  intros. unfold okB, safeSet. destruct (c <? 128), (32 <=? c); reflexivity.
Qed.

Lemma forallb_okB : forall p, forallb okB p = forallb safeSet p.
Proof. induction p; cbn; auto. now rewrite okB_safe, IHp. Qed.

Lemma WriteBytes_spec : forall space s, bytes_ok s ->
  exists t u, WriteBytes space s = space ++ t /\ (forall r, json_string (t ++ r) = Some (u, r)) /\
  ((forallb safeSet s = true /\ u = s) \/
   (exists p c r, s = p ++ c :: r /\ forallb safeSet p = true /\ safeSet c = false /\
      (r = [] /\ u = p \/ r <> [] /\ u = p ++ readB [] (c :: r)))).
Proof.
  intros space s Hs. unfold WriteBytes.
  assert (P : forall pend, forallb safeSet pend = true -> forallb plain pend = true).
  { intros pend H. rewrite forallb_forall in *. auto using safe_plain. }
  destruct (fastLoop_spec okB s (space ++ [34]) 0 0) as [(p & c & r & E & Hp & Hc & F)|[Hp F]];
  unfold okB in F at 1; rewrite F; clear F; rewrite forallb_okB in Hp.
  - rewrite okB_safe in Hc. rewrite Z.add_0_l. destruct r as [|d r].
    + exists ([34] ++ p ++ [34]), p. rewrite E, lenZ_app. change (lenZ [c]) with 1.
      replace (lenZ p =? lenZ p + 1 - 1) with true by lia.
      split; [now rewrite <- !app_assoc|]. split.
      * intros r. cbn [app]. rewrite json_string_quote, <- app_assoc, body_plains by auto.
        cbn. now rewrite app_nil_r.
      * right. exists p, c, []. auto 10.
    + exists ([34] ++ p ++ slowB [] (c :: d :: r) ++ [34]), (p ++ readB [] (c :: d :: r)).
      replace (lenZ p =? lenZ s - 1) with false
        by (rewrite E, lenZ_app, !lenZ_cons; pose proof (lenZ_nonneg r); lia).
      split; [rewrite E, slice_tail, slowBytes_spec, <- !app_assoc; reflexivity|]. split.
      * intros t. cbn [app]. rewrite json_string_quote, <- app_assoc, body_plains by auto.
        rewrite <- app_assoc. rewrite body_slowB; auto.
        rewrite E in Hs. apply Forall_app in Hs as [_ Hs]. exact Hs.
      * right. exists p, c, (d :: r). repeat split; auto. right. split; [discriminate|auto].
  - exists ([34] ++ s ++ [34]), s. split.
    + destruct s as [|c s].
      * change (0 =? lenZ [] - 1) with false. cbv iota. change (slice [] 0 (lenZ [])) with (@nil Z).
        rewrite slowBytes_spec. cbn [slowB app]. now rewrite <- !app_assoc.
      * rewrite Z.add_0_l, Z.eqb_refl. now rewrite <- !app_assoc.
    + split; auto. intros r. cbn [app]. rewrite json_string_quote, <- app_assoc, body_plains by auto.
      cbn. now rewrite app_nil_r.
Qed.

(** * When nothing is lost *)
Definition is_high (b : Z) : bool := 128 <=? b.

(** A safe byte directly followed by a byte >= 0x80. *)
Definition has_pair (s : bytes) : Prop :=
  exists x a h y, s = x ++ a :: h :: y /\ safeSet a = true /\ is_high h = true.

Lemma display_cons : forall b s, display (b :: s) = shown b ++ display s.
Proof. reflexivity. Qed.

Lemma safe_shown : forall b, safeSet b = true -> shown b = [b].
Proof.
  intros b H. unfold shown, shown_as_is, safeSet in *.
  apply andb_true_iff in H as [H H4]. apply andb_true_iff in H as [H H3].
  apply andb_true_iff in H as [H1 H2]. rewrite H1, H2. reflexivity.
Qed.

Lemma display_safe : forall p s, forallb safeSet p = true -> display (p ++ s) = p ++ display s.
Proof.
  induction p as [|a p IH]; intros s H; auto.
  cbn [forallb] in H. apply andb_true_iff in H as [Ha H].
  cbn [app]. rewrite display_cons, safe_shown, IH by auto. reflexivity.
Qed.

Lemma shown_len : forall b, (1 <= List.length (shown b))%nat.
Proof. intros. unfold shown. destruct shown_as_is; cbn; lia. Qed.

Lemma high_not_safe : forall b, is_high b = true -> safeSet b = false.
Proof.
  intros b H. unfold is_high, safeSet in *. replace (b <? 128) with false by lia.
  rewrite andb_false_r. reflexivity.
Qed.

(** The reading never gets longer than the display, and is the display when no pair is present. *)
Lemma readB_le : forall rest pend, forallb safeSet pend = true ->
  (List.length (readB pend rest) <= List.length pend + List.length (display rest))%nat.
Proof.
  induction rest as [|b r IH]; intros pend Hp; cbn [readB].
  - cbn. lia.
  - rewrite display_cons, app_length. destruct (128 <=? b) eqn:E1; [|destruct (safeSet b) eqn:E2].
    + rewrite app_length. specialize (IH [] eq_refl). cbn in IH. lia.
    + specialize (IH (pend ++ [b])). rewrite forallb_app, Hp in IH. cbn in IH. rewrite E2 in IH.
      specialize (IH eq_refl). rewrite app_length in IH. cbn in IH. pose proof (shown_len b). lia.
    + rewrite !app_length. specialize (IH [] eq_refl). cbn in IH. lia.
Qed.

Lemma readB_exact : forall rest pend, forallb safeSet pend = true ->
  ~ has_pair (pend ++ rest) -> readB pend rest = pend ++ display rest.
Proof.
  induction rest as [|b r IH]; intros pend Hp N; cbn [readB].
  - cbn. now rewrite app_nil_r.
  - rewrite display_cons. destruct (128 <=? b) eqn:E1; [|destruct (safeSet b) eqn:E2].
    + destruct pend as [|a pend].
      * rewrite IH; auto. intros (x & a & h & y & E & Ha & Hh). cbn in E. apply N. cbn.
        exists (b :: x), a, h, y. rewrite E. auto.
      * exfalso. apply N. destruct (exists_last (l := a :: pend)) as (x & a' & E); [discriminate|].
        rewrite E in *. exists x, a', b, r. rewrite <- app_assoc. cbn. repeat split; auto.
        rewrite forallb_app in Hp. cbn in Hp. now destruct (safeSet a'), (forallb safeSet x).
    + rewrite IH.
      * rewrite safe_shown by auto. rewrite <- app_assoc. reflexivity.
      * rewrite forallb_app, Hp. cbn. now rewrite E2.
      * rewrite <- app_assoc. exact N.
    + rewrite IH; auto. intros (x & a & h & y & E & Ha & Hh). cbn in E. apply N.
      exists (pend ++ b :: x), a, h, y. rewrite E, <- app_assoc. auto.
Qed.

Lemma readB_short : forall x rest pend a h y, forallb safeSet pend = true ->
  rest = x ++ a :: h :: y -> safeSet a = true -> is_high h = true ->
  (List.length (readB pend rest) < List.length pend + List.length (display rest))%nat.
Proof.
  induction x as [|b x IH]; intros rest pend a h y Hp -> Ha Hh.
  - cbn [app readB]. destruct (128 <=? a) eqn:Ea.
    { pose proof (high_not_safe a Ea). congruence. }
    rewrite Ha. unfold is_high in Hh. rewrite Hh. rewrite !display_cons, !app_length.
    pose proof (readB_le y [] eq_refl) as L. cbn in L. rewrite (safe_shown a) by auto. cbn [List.length]. lia.
  - cbn [app readB]. rewrite display_cons, app_length.
    pose proof (IH (x ++ a :: h :: y) [] a h y eq_refl eq_refl Ha Hh) as L0. cbn [List.length] in L0.
    destruct (128 <=? b) eqn:E1; [|destruct (safeSet b) eqn:E2].
    + rewrite app_length. lia.
    + specialize (IH (x ++ a :: h :: y) (pend ++ [b]) a h y).
      rewrite forallb_app, Hp in IH. cbn [forallb] in IH. rewrite E2 in IH.
      specialize (IH eq_refl eq_refl Ha Hh). rewrite app_length in IH. cbn [List.length] in IH.
      pose proof (shown_len b). lia.
    + rewrite !app_length. lia.
Qed.

(** The inputs on which something is lost. *)
Definition bytes_lossy (s : bytes) : Prop :=
  (exists p c, s = p ++ [c] /\ forallb safeSet p = true /\ safeSet c = false) \/
  (exists x c y a h z, s = x ++ c :: y ++ a :: h :: z /\
     safeSet c = false /\ safeSet a = true /\ is_high h = true).

Lemma split_unique : forall p c r p' c' r', p ++ c :: r = p' ++ c' :: r' ->
  forallb safeSet p = true -> safeSet c = false -> forallb safeSet p' = true -> safeSet c' = false ->
  p = p' /\ c = c' /\ r = r'.
Proof.
  induction p as [|a p IH]; intros c r p' c' r' E H1 H2 H3 H4; destruct p' as [|a' p']; cbn in *.
  - injection E as -> ->. auto.
  - injection E as -> ->. rewrite H2 in H3. discriminate.
  - injection E as -> E. rewrite H4 in H1. discriminate.
  - injection E as -> E. apply andb_true_iff in H1 as [_ H1], H3 as [_ H3].
    destruct (IH _ _ _ _ _ E H1 H2 H3 H4) as (-> & -> & ->). auto.
Qed.

Lemma first_unsafe : forall x c y p d r, x ++ c :: y = p ++ d :: r ->
  safeSet c = false -> forallb safeSet p = true -> exists x', x ++ [c] = p ++ d :: x' .
Proof.
  induction x as [|a x IH]; intros c y p d r E Hc Hp; destruct p as [|a' p]; cbn in *.
  - injection E as -> ->. exists []. auto.
  - injection E as -> ->. rewrite Hc in Hp. discriminate.
  - injection E as -> E. eexists. reflexivity.
  - injection E as -> E. apply andb_true_iff in Hp as [_ Hp].
    destruct (IH _ _ _ _ _ E Hc Hp) as (x' & ->). exists x'. auto.
Qed.

Lemma WriteBytes_iff : forall space s, bytes_ok s ->
  ((exists t, WriteBytes space s = space ++ t /\ json_string t = Some (display s, [])) <->
   ~ bytes_lossy s).
Proof.
  intros space s Hs. destruct (WriteBytes_spec space s Hs) as (t & u & E & D & C).
  assert (X : (exists t, WriteBytes space s = space ++ t /\ json_string t = Some (display s, [])) <-> u = display s).
  { specialize (D []). rewrite app_nil_r in D. split.
    - intros (t' & E' & D'). rewrite E in E'. apply app_inv_head in E'. subst t'. congruence.
    - intros ->. eauto. }
  rewrite X. clear X. destruct C as [[S ->]|(p & c & r & -> & Hp & Hc & C)].
  - assert (display s = s) as -> by (rewrite <- (app_nil_r s) at 1; rewrite display_safe by auto; cbn; now rewrite app_nil_r).
    split; auto. intros _ L. rewrite forallb_forall in S.
    destruct L as [(p & c & -> & _ & Hc)|(x & c & y & a & h & z & -> & Hc & _)];
    rewrite S in Hc; try discriminate; rewrite in_app_iff; cbn; auto.
  - destruct C as [[-> ->]|[Hr ->]].
    + split.
      * intros K. exfalso. rewrite display_safe in K by auto.
        apply (f_equal (@List.length Z)) in K. rewrite display_cons, !app_length in K. pose proof (shown_len c). cbn in K. lia.
      * intros N. exfalso. apply N. left. eauto.
    + rewrite display_safe by auto. split.
      * intros K L. apply app_inv_head in K.
        destruct L as [(p' & c' & E' & Hp' & Hc')|(x & c' & y & a & h & z & E' & Hc' & Ha & Hh)].
        -- destruct (split_unique _ _ _ _ _ _ E' Hp Hc Hp' Hc') as (_ & _ & ->). auto.
        -- destruct (first_unsafe _ _ _ _ _ _ (eq_sym E') Hc' Hp) as (x' & Ex).
           assert (E2 : p ++ c :: r = p ++ c :: x' ++ y ++ a :: h :: z).
           { rewrite E'. change (c' :: y ++ a :: h :: z) with ([c'] ++ y ++ a :: h :: z).
             rewrite app_assoc, Ex, <- app_assoc. reflexivity. }
           apply app_inv_head in E2. injection E2 as E2.
           pose proof (readB_short (c :: x' ++ y) (c :: r) [] a h z eq_refl) as S.
           rewrite K in S. rewrite E2 in S. cbn [app] in S. rewrite <- app_assoc in S.
           specialize (S eq_refl Ha Hh). cbn [List.length] in S. lia.
      * intros N. f_equal. rewrite readB_exact; auto.
        intros (x & a & h & y & E' & Ha & Hh). cbn [app] in E'. apply N. right.
        destruct x as [|c' x].
        -- cbn in E'. injection E' as -> _. congruence.
        -- cbn in E'. injection E' as <- ->. exists p, c, x, a, h, y. auto.
Qed.
