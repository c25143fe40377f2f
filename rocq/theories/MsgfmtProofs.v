(** Proofs about the template parser and the formatters. *)
From Verif Require Import Base JsonStrSpec JsonStrModel JsonStrProofs ParseModel ParseSpec ParseProofs ParseReadProofs MsgfmtModel MsgfmtSpec.

Lemma bytes_eqb_eq : forall a b, bytes_eqb a b = true <-> a = b.
Proof. intros. unfold bytes_eqb. destruct (list_eq_dec Z.eq_dec a b); split; congruence. Qed.
Lemma bytes_eqb_neq : forall a b, bytes_eqb a b = false <-> a <> b.
Proof. intros. unfold bytes_eqb. destruct (list_eq_dec Z.eq_dec a b); split; congruence. Qed.

(** * Reading from a string *)
Definition str (e : option err) (t : bytes) : Source := mkSource e None t [].
(** The source when [t] is still to come: at the end io.EOF is recorded. *)
Definition upto (t : bytes) : Source := str (match t with [] => Some EOF | _ => None end) t.

Lemma upto_cons : forall c t, upto (c :: t) = str None (c :: t).
Proof. reflexivity. Qed.

Lemma ConsumeN_str : forall p t, p <> [] -> ConsumeN (List.length p) (str None (p ++ t)) = Ok tt (upto t).
Proof.
  intros p t N. assert (L : (0 < List.length p)%nat) by (destruct p; cbn; [congruence|lia]).
  change (ConsumeN (List.length p) (str None (p ++ t))) with
    (if negb (List.length p =? 0)%nat && (List.length (p ++ t) <=? List.length p)%nat
     then consumeLoop 1 (List.length p - List.length (p ++ t)) (str (Some EOF) [])
     else Ok tt (str None (skipn (List.length p) (p ++ t)))).
  replace (List.length p =? 0)%nat with false by (symmetry; apply Nat.eqb_neq; lia). cbn [negb andb].
  destruct t as [|d t].
  - rewrite app_nil_r, Nat.leb_refl, Nat.sub_diag. reflexivity.
  - replace (List.length (p ++ d :: t) <=? List.length p)%nat with false.
    2: { symmetry. apply Nat.leb_gt. rewrite app_length. cbn. lia. }
    rewrite skipn_app, skipn_all, Nat.sub_diag. reflexivity.
Qed.

Lemma ConsumeN_empty : forall n e, n <> 0%nat -> ConsumeN n (str e []) = OutOfFuel.
Proof.
  intros n e N. unfold ConsumeN, rounds. cbn [s_next s_reader str List.length Nat.add].
  destruct n as [|n]; [congruence|]. destruct e; reflexivity.
Qed.

Lemma Consume1_str : forall c t, Consume1 c (str None (c :: t)) = Ok tt (upto t).
Proof.
  intros c t. unfold Consume1. cbn [s_current str]. rewrite Z.eqb_refl. apply (ConsumeN_str [c] t). discriminate.
Qed.

Lemma Peek1_str : forall e c t, Peek1 (str e (c :: t)) = Ok c (str e (c :: t)).
Proof. reflexivity. Qed.

Lemma utf8_nonempty : forall u, utf8 u <> [].
Proof. intros u. unfold utf8. repeat (destruct (_ <? _)); discriminate. Qed.

Lemma PeekRune_str : forall e u t, is_scalar u -> PeekRune (str e (utf8 u ++ t)) = ((u, lenZ (utf8 u)), str e (utf8 u ++ t)).
Proof.
  intros e u t H.
  assert (C : clean (str e (utf8 u ++ t))) by reflexivity.
  assert (N : s_current (str e (utf8 u ++ t)) <> []).
  { cbn. pose proof (utf8_nonempty u). destruct (utf8 u); cbn; congruence. }
  destruct (PeekRune_spec _ C N) as (s' & E & _).
  assert (R : remaining (str e (utf8 u ++ t)) = utf8 u ++ t) by (cbn; apply app_nil_r).
  rewrite R, utf8_decode in E by auto.
  assert (SS : snd (PeekRune (str e (utf8 u ++ t))) = str e (utf8 u ++ t)).
  { unfold PeekRune. destruct (s_current _) as [|p0 cur]; auto. destruct (c_as <=? first p0); auto.
    unfold PeekN. cbn [s_reader str s_current]. destruct (_ <=? _)%nat; reflexivity. }
  rewrite E in SS. cbn [snd] in SS. subst s'. exact E.
Qed.

Lemma PeekRune_empty : forall e, PeekRune (str e []) = ((RuneError, 1), str e []).
Proof. reflexivity. Qed.

Lemma ConsumeN_rune : forall u t, ConsumeN (Z.to_nat (lenZ (utf8 u))) (str None (utf8 u ++ t)) = Ok tt (upto t).
Proof.
  intros u t. unfold lenZ. rewrite Nat2Z.id. apply ConsumeN_str. apply utf8_nonempty.
Qed.

(** The input goes on with a rune satisfying [P]. *)
Definition next_rune (P : Z -> Prop) (t : bytes) : Prop := exists u t', t = utf8 u ++ t' /\ is_scalar u /\ P u.

Lemma next_upto : forall P t, next_rune P t -> upto t = str None t.
Proof. intros P t (u & t' & -> & _). pose proof (utf8_nonempty u). unfold upto. destruct (utf8 u); cbn; congruence. Qed.

Lemma next_more : forall P t t', next_rune P t -> next_rune P (t ++ t').
Proof. intros P t t' (u & t'' & -> & H). exists u, (t'' ++ t'). rewrite app_assoc. auto. Qed.

Lemma UnicodeSpace_str : forall l t, space_runes l -> next_rune (fun u => unicodeIsSpace u = false) t ->
  forall fuel count, (List.length l < fuel)%nat -> exists n, UnicodeSpace fuel count (str None (runes_text l ++ t)) = Ok n (str None t).
Proof.
  induction l as [|u l IH]; intros t H Ht fuel count L; (destruct fuel as [|fuel]; [cbn in L; lia|]).
  - cbn [runes_text flat_map app UnicodeSpace s_err str]. destruct Ht as (u & t' & -> & Hu & Su).
    rewrite PeekRune_str by auto. rewrite Su. eauto.
  - inversion H as [|? ? [Hu Su] H']; subst. cbn [UnicodeSpace s_err str runes_text flat_map]. rewrite <- app_assoc.
    rewrite PeekRune_str by auto. rewrite Su. unfold bind. rewrite ConsumeN_rune.
    fold (runes_text l). rewrite (next_upto (fun u => unicodeIsSpace u = true \/ unicodeIsSpace u = false)).
    2: { destruct l as [|v l]; cbn [runes_text flat_map app].
         - destruct Ht as (v & t' & -> & Hv & Sv). exists v, t'. auto.
         - inversion H' as [|? ? [Hv Sv] _]; subst. exists v, (flat_map utf8 l ++ t). rewrite app_assoc. auto. }
    apply IH; auto. cbn in L. lia.
Qed.

Lemma UnicodeSpace_err : forall fuel count e t, UnicodeSpace (S fuel) count (str (Some e) t) = Ok count (str (Some e) t).
Proof. reflexivity. Qed.

Definition excluded (r : Z) : bool := existsb (fun t : table => t r) patternWhiteSpaceAndPatternSyntax.

Lemma excluded_spec : forall r, excluded r = Pattern_White_Space r || Pattern_Syntax r.
Proof. intros. unfold excluded, patternWhiteSpaceAndPatternSyntax. cbn [existsb]. now rewrite orb_false_r. Qed.

Lemma name_not_excluded : forall r, name_rune r -> is_scalar r /\ excluded r = false.
Proof. intros r (H & A & B). rewrite excluded_spec, A, B. auto. Qed.

Lemma UnicodeRanges_str : forall l t, Forall name_rune l -> next_rune (fun u => excluded u = true) t ->
  forall fuel space, (List.length l < fuel)%nat ->
  UnicodeRanges fuel space [] patternWhiteSpaceAndPatternSyntax (str None (runes_text l ++ t)) = Ok (space ++ l) (str None t).
Proof.
  induction l as [|u l IH]; intros t H Ht fuel space L; (destruct fuel as [|fuel]; [cbn in L; lia|]).
  - cbn [runes_text flat_map app UnicodeRanges]. destruct Ht as (u & t' & -> & Hu & Su).
    rewrite PeekRune_str by auto. fold (excluded u). rewrite Su. now rewrite app_nil_r.
  - inversion H as [|? ? Hn H']; subst. destruct (name_not_excluded u Hn) as [Hu Su].
    cbn [UnicodeRanges runes_text flat_map]. rewrite <- app_assoc.
    rewrite PeekRune_str by auto. fold (excluded u). rewrite Su. unfold bind. rewrite ConsumeN_rune.
    fold (runes_text l). rewrite (next_upto (fun _ => True)).
    2: { destruct l as [|v l]; cbn [runes_text flat_map app].
         - destruct Ht as (v & t' & -> & Hv & Sv). exists v, t'. auto.
         - inversion H' as [|? ? Hv _]; subst. destruct (name_not_excluded v Hv).
           exists v, (flat_map utf8 l ++ t). rewrite app_assoc. auto. }
    rewrite IH by (auto; cbn in L; lia). now rewrite <- app_assoc.
Qed.

(** Without an excluded rune the reader of names never returns. *)
Lemma UnicodeRanges_unterminated : forall l fuel space e, Forall name_rune l ->
  (l <> [] -> e = None) ->
  UnicodeRanges fuel space [] patternWhiteSpaceAndPatternSyntax (str e (runes_text l)) = OutOfFuel.
Proof.
  induction l as [|u l IH]; intros fuel space e H He; destruct fuel as [|fuel]; auto.
  - cbn [runes_text flat_map UnicodeRanges]. rewrite PeekRune_empty. cbn - [ConsumeN]. unfold bind.
    rewrite ConsumeN_empty by (cbn; lia). reflexivity.
  - rewrite He by discriminate. inversion H as [|? ? Hn H']; subst. destruct (name_not_excluded u Hn) as [Hu Su].
    cbn [UnicodeRanges runes_text flat_map]. rewrite PeekRune_str by auto. fold (excluded u). rewrite Su. unfold bind. rewrite ConsumeN_rune.
    fold (runes_text l). unfold upto. apply IH; auto. intros N. destruct l as [|v l]; [congruence|].
    cbn [runes_text flat_map]. pose proof (utf8_nonempty v). destruct (utf8 v); cbn; congruence.
Qed.

(** A scanning loop on a string: [p] is passed, the scan stops at [t]. *)
Lemma scanBuf_str : forall A (body : A -> Z -> verdict A) (f : A -> Z -> A) p a i t,
  Forall (fun c => forall a, body a c = Go (f a c)) p ->
  match t with [] => True | c :: _ => forall a, body a c = Stop end ->
  scanBuf body a i (p ++ t) = (fold_left f p a, (i + List.length p)%nat, match t with [] => Go tt | _ => Stop end).
Proof.
  intros A body f p. induction p as [|c p IH]; intros a i t H Ht.
  - cbn [app fold_left List.length]. rewrite Nat.add_0_r. destruct t as [|c t]; auto. cbn. now rewrite Ht.
  - inversion H as [|? ? Hc H']; subst. cbn [app scanBuf fold_left List.length]. rewrite Hc, IH by auto.
    now rewrite Nat.add_succ_r.
Qed.

Lemma scan_str : forall A (body : A -> Z -> verdict A) (f : A -> Z -> A) zero p a t,
  Forall (fun c => forall a, body a c = Go (f a c)) p ->
  match t with [] => True | c :: _ => forall a, body a c = Stop end ->
  scan body zero a (str None (p ++ t)) = Ok (fold_left f p a) (upto t).
Proof.
  intros A body f zero p a t H Ht.
  change (scan body zero a (str None (p ++ t))) with
    (match scanBuf body a 0 (p ++ t) with
     | (a', _, Go _) => scanLoop body zero 1 a' (str (Some EOF) [])
     | (a', i, Stop) => (run ConsumeN i; ret a') (str None (p ++ t))
     | (_, _, Fail e) => Ok zero (ReportError e (str None (p ++ t)))
     end).
  rewrite (scanBuf_str A body f) by auto.
  destruct t as [|c t].
  - reflexivity.
  - unfold bind. cbn [Nat.add]. destruct p as [|d p].
    + reflexivity.
    + rewrite ConsumeN_str by discriminate. reflexivity.
Qed.

Lemma AnyExcept1_str : forall p b t, ~ In b p -> match t with [] => True | c :: _ => c = b end ->
  AnyExcept1 [] b (str None (p ++ t)) = Ok p (upto t).
Proof.
  intros p b t H Ht. unfold AnyExcept1. rewrite (scan_str _ _ (fun a c => a ++ [c])).
  - now rewrite fold_append.
  - apply Forall_forall. intros c Hc a. destruct (Z.eqb_spec c b); [subst; tauto|reflexivity].
  - destruct t as [|c t]; auto. intros a. subst c. now rewrite Z.eqb_refl.
Qed.

Lemma AnyExcept2_str : forall p b1 b2 t, ~ In b1 p -> ~ In b2 p -> match t with [] => True | c :: _ => c = b1 \/ c = b2 end ->
  AnyExcept2 [] b1 b2 (str None (p ++ t)) = Ok p (upto t).
Proof.
  intros p b1 b2 t H1 H2 Ht. unfold AnyExcept2. rewrite (scan_str _ _ (fun a c => a ++ [c])).
  - now rewrite fold_append.
  - apply Forall_forall. intros c Hc a. destruct (Z.eqb_spec c b1); [subst; tauto|]. destruct (Z.eqb_spec c b2); [subst; tauto|reflexivity].
  - destruct t as [|c t]; auto. intros a. destruct Ht; subst c; rewrite Z.eqb_refl; [reflexivity|now rewrite orb_true_r].
Qed.

(** ASCII bytes are runes. *)
Lemma next_ascii : forall (P : Z -> Prop) c t, 0 <= c < 128 -> P c -> next_rune P (c :: t).
Proof.
  intros P c t H Hp. exists c, t. split; [|split; [left; lia|auto]]. unfold utf8. replace (c <? 128) with true by lia. reflexivity.
Qed.

Lemma Parse_noinfix : forall V P (PT : M (option P)) (PP : (Z -> M (option V)) -> P -> M (option V)) IP fuel prec s,
  Parse V P Empty_set PT (ret (None, 0)) PP IP (S (S fuel)) prec s =
  bind PT (fun token => match token with
    | None => report (ErrMsg (bs "can not parse")) None
    | Some token => PP (Parse V P Empty_set PT (ret (None, 0)) PP IP (S fuel)) token
    end) s.
Proof.
  intros V P PT PP IP fuel prec s. cbn [Parse]. unfold bind. destruct (PT s) as [tok s1| |]; auto.
  destruct tok as [tok|]; auto.
  match goal with |- context [PP ?r tok s1] => destruct (PP r tok s1) as [v s2| |]; auto end.
  cbn [parseLoop]. destruct (s_err s2); reflexivity.
Qed.

Lemma upto_text : forall c t, upto (c :: t) = str None (c :: t).
Proof. reflexivity. Qed.

(** * Names *)
Lemma after_name : forall p rest, placeholder_ok p -> next_rune (fun u => excluded u = true) rest ->
  next_rune (fun u => excluded u = true) (runes_text (p_after p) ++ rest).
Proof.
  intros p rest (_ & A & _ & _ & W & _) H. destruct (p_after p) as [|u l]; auto.
  inversion A as [|? ? [Hu _] _]; subst. cbn [runes_text flat_map]. rewrite <- app_assoc. exists u. eexists. split; [reflexivity|].
  split; auto. now rewrite excluded_spec, W.
Qed.

Lemma before_name : forall p rest, placeholder_ok p -> next_rune (fun u => unicodeIsSpace u = false) rest ->
  next_rune (fun u => unicodeIsSpace u = false) (key_of p ++ runes_text (p_after p) ++ rest).
Proof.
  intros p rest (_ & A & N & F & W & _) H. unfold key_of. destruct (p_name p) as [|u l].
  - rewrite F. exact H.
  - inversion N as [|? ? (Hu & _) _]; subst. cbn [runes_text flat_map]. rewrite <- app_assoc. exists u. eexists. split; [reflexivity|]. auto.
Qed.

(** The number of rounds that suffices for a placeholder. *)
Definition need (p : placeholder) : nat :=
  (6 + List.length (p_before p) + List.length (p_name p) + List.length (p_after p) +
   match p_time p with None => 0 | Some (sp, args) => List.length sp + List.length args end)%nat.

Lemma variablePrefix_str : forall p rest fuel, placeholder_ok p -> (need p <= fuel)%nat ->
  next_rune (fun u => unicodeIsSpace u = false) rest ->
  variablePrefixToken fuel (str None (runes_text (p_before p) ++ key_of p ++ runes_text (p_after p) ++ rest)) =
  Ok (Some tt) (str None (key_of p ++ runes_text (p_after p) ++ rest)).
Proof.
  intros p rest fuel H L Hr. unfold variablePrefixToken, bind.
  destruct (UnicodeSpace_str (p_before p) (key_of p ++ runes_text (p_after p) ++ rest) (proj1 H) (before_name p rest H Hr) fuel 0) as (n & ->).
  { unfold need in L. lia. }
  reflexivity.
Qed.

Lemma idParse_str : forall p rest fuel, placeholder_ok p -> (need p <= fuel)%nat ->
  next_rune (fun u => excluded u = true) rest ->
  idParse fuel (str None (key_of p ++ runes_text (p_after p) ++ rest)) = Ok (Some (OId (key_of p))) (str None (runes_text (p_after p) ++ rest)).
Proof.
  intros p rest fuel H L Hr. unfold idParse, bind, key_of.
  rewrite UnicodeRanges_str; [reflexivity| | |unfold need in L; lia].
  - now destruct H as (_ & _ & N & _).
  - now apply after_name.
Qed.

(** After the name: [c] is the comma or the closing brace. *)
Lemma variableInfix_str : forall p c rest fuel, placeholder_ok p -> (need p <= fuel)%nat -> c = 44 \/ c = 125 ->
  variableInfixToken fuel (str None (runes_text (p_after p) ++ c :: rest)) =
  Ok (if c =? 44 then (Some tt, 1) else (None, 0)) (str None (c :: rest)).
Proof.
  intros p c rest fuel H L Hc. unfold variableInfixToken, bind.
  destruct (UnicodeSpace_str (p_after p) (c :: rest) ltac:(now destruct H as (_ & A & _))
    ltac:(apply next_ascii; [lia|destruct Hc; subst c; reflexivity]) fuel 0) as (n & ->).
  { unfold need in L. lia. }
  unfold Peek0, Peek1. cbn [s_current str]. destruct Hc; subst c; reflexivity.
Qed.

Lemma variableInfix_brace : forall rest fuel, (1 <= fuel)%nat -> variableInfixToken fuel (str None (125 :: rest)) = Ok (None, 0) (str None (125 :: rest)).
Proof.
  intros rest fuel L. pose proof (variableInfix_str (mkPlaceholder [] [] [] None) 125 rest) as K. cbn [p_after runes_text flat_map app] in K.
  unfold variableInfixToken, bind.
  destruct (UnicodeSpace_str [] (125 :: rest) ltac:(constructor) ltac:(apply next_ascii; [lia|reflexivity]) fuel 0) as (n & E); [cbn; lia|].
  cbn [runes_text flat_map app] in E. rewrite E. reflexivity.
Qed.

(** * Function invocations *)
Lemma funcArgsLoop_str : forall args fuel name acc rest, Forall layout_ok args -> (List.length args < fuel)%nat ->
  funcArgsLoop fuel name acc (str None (flat_map (fun a => 44 :: a) args ++ 125 :: rest)) =
  Ok (Some (mkInvocation name (acc ++ args))) (str None (125 :: rest)).
Proof.
  induction args as [|a args IH]; intros fuel name acc rest H L; (destruct fuel as [|fuel]; [cbn in L; lia|]).
  - cbn [flat_map app funcArgsLoop]. unfold bind.
    destruct (UnicodeSpace_str [] (125 :: rest) ltac:(constructor) ltac:(apply next_ascii; [lia|reflexivity]) (S fuel) 0) as (n & E); [cbn; lia|].
    cbn [runes_text flat_map app] in E. rewrite E, Peek1_str. cbn [Z.eqb Pos.eqb]. rewrite app_nil_r. reflexivity.
  - inversion H as [|? ? [A1 A2] H']; subst. cbn [flat_map funcArgsLoop]. rewrite <- app_assoc. cbn [app]. unfold bind.
    destruct (UnicodeSpace_str [] (44 :: a ++ flat_map (fun a => 44 :: a) args ++ 125 :: rest) ltac:(constructor) ltac:(apply next_ascii; [lia|reflexivity]) (S fuel) 0) as (n & E); [cbn; lia|].
    cbn [runes_text flat_map app] in E. rewrite E, Peek1_str.
    change (44 =? 44) with true. cbv iota beta. rewrite Consume1_str. unfold upto.
    replace (match a ++ flat_map (fun a => 44 :: a) args ++ 125 :: rest with [] => Some EOF | _ => None end) with (@None err)
      by (destruct a; [destruct args|]; reflexivity).
    rewrite AnyExcept2_str by (auto; destruct args; cbn; auto).
    replace (upto (flat_map (fun a => 44 :: a) args ++ 125 :: rest)) with (str None (flat_map (fun a => 44 :: a) args ++ 125 :: rest))
      by (destruct args; reflexivity).
    rewrite IH by (auto; cbn in L; lia). now rewrite <- app_assoc.
Qed.

Lemma parseFormatter_str : forall sp args fuel rest, space_runes sp -> Forall layout_ok args -> (4 + List.length sp + List.length args <= fuel)%nat ->
  parseFormatter fuel 0 (str None (runes_text sp ++ bs "goTime" ++ flat_map (fun a => 44 :: a) args ++ 125 :: rest)) =
  Ok (Some (mkInvocation (bs "goTime") args)) (str None (125 :: rest)).
Proof.
  intros sp args fuel rest Hs Ha L. unfold parseFormatter.
  destruct fuel as [|[|fuel]]; try (cbn in L; lia). rewrite Parse_noinfix. unfold bind at 1.
  unfold formatterPrefixToken, bind at 1.
  destruct (UnicodeSpace_str sp (bs "goTime" ++ flat_map (fun a => 44 :: a) args ++ 125 :: rest) Hs
    ltac:(apply next_ascii; [split; vm_compute; congruence|reflexivity]) (S (S fuel)) 0) as (n & ->); [cbn in L; lia|].
  change (bind (fun s : Source => let '(buf, _, s') := PeekN 6 s in Ok buf s') 
    (fun str0 : bytes => if bytes_eqb str0 (bs "select") then panic else if bytes_eqb str0 (bs "plural") then panic else ret (Some tt))
    (str None (bs "goTime" ++ flat_map (fun a : list Z => 44 :: a) args ++ 125 :: rest)))
    with (@Ok (option unit) (Some tt) (str None (bs "goTime" ++ flat_map (fun a : list Z => 44 :: a) args ++ 125 :: rest))).
  cbv iota beta. unfold funcNameParse, bind.
  rewrite AnyExcept2_str.
  - replace (upto (flat_map (fun a => 44 :: a) args ++ 125 :: rest)) with (str None (flat_map (fun a => 44 :: a) args ++ 125 :: rest))
      by (destruct args; reflexivity).
    rewrite funcArgsLoop_str by (auto; lia). reflexivity.
  - vm_compute. intuition congruence.
  - vm_compute. intuition congruence.
  - destruct args; cbn; auto.
Qed.

Section Parsing.
  Variable encoderOf : Z -> option (value -> option bytes).
  Variable timeString : Z -> bytes.
  Variable timeFormat : bytes -> Z -> bytes.
  Variable trimSpace : bytes -> bytes.
  Variable argsText : list value -> bytes.
  Variable panicText : bytes.

  (** The formatter of a plain placeholder; None: its compilation panics. *)
  Definition var_fmt (sample : list value) (key : bytes) : option formatter :=
    match findValueIndex sample key with
    | None => None
    | Some idx =>
      if idx =? -1 then None
      else match at_ sample idx with
      | None => None
      | Some (VStringer _ _) | Some (VTime _) => Some (StringerF idx)
      | Some (VStr _) => Some (StrF idx)
      | Some (VByt _) => Some (BytesF idx)
      | Some (VAny ty _) => match encoderOf ty with Some encoder => Some (JsonF idx encoder) | None => None end
      end
    end.

  Lemma parseVariable_str : forall sample key s, s_err s = None ->
    match var_fmt sample key with
    | Some f => parseVariable encoderOf sample key s = Ok (Some f) s
    | None => parseVariable encoderOf sample key s = Panic \/ exists s', parseVariable encoderOf sample key s = Ok None s'
    end.
  Proof.
    intros sample key s E. unfold var_fmt, parseVariable, bind, orPanic, report, panic, ret.
    destruct (findValueIndex sample key) as [idx|]; [|left; reflexivity]. cbv beta iota.
    destruct (idx =? -1); [right; eexists; reflexivity|]. cbv beta iota.
    destruct (at_ sample idx) as [v|]; [|left; reflexivity]. cbv beta iota.
    destruct v; try reflexivity. destruct (encoderOf ty); [reflexivity|left; reflexivity].
  Qed.

  Lemma parseVar_plain : forall p sample fuel rest, placeholder_ok p -> (need p <= fuel)%nat ->
    parseVar trimSpace panicText fuel sample 0 (str None (runes_text (p_before p) ++ key_of p ++ runes_text (p_after p) ++ 125 :: rest)) =
    Ok (Some (OId (key_of p))) (str None (125 :: rest)).
  Proof.
    intros p sample fuel rest H L. unfold parseVar.
    destruct fuel as [|[|fuel]]; try (unfold need in L; lia). cbn [Parse]. unfold bind.
    rewrite variablePrefix_str by (first [assumption | apply next_ascii; [lia|reflexivity]]).
    rewrite idParse_str by (first [assumption | apply next_ascii; [lia|reflexivity]]).
    cbn [parseLoop s_err str]. unfold bind. rewrite (variableInfix_str p 125) by auto. reflexivity.
  Qed.

  (** The formatter of a placeholder with goTime, or the error. *)
  Definition time_fmt (sample : list value) (key : bytes) (args : list bytes) : formatter + err :=
    newFuncFormatter trimSpace panicText key (bs "goTime") args sample.

  Lemma parseVar_time : forall p sp args sample fuel rest, placeholder_ok p -> p_time p = Some (sp, args) -> (need p <= fuel)%nat ->
    parseVar trimSpace panicText fuel sample 0 (str None (runes_text (p_before p) ++ key_of p ++ runes_text (p_after p) ++
      44 :: runes_text sp ++ bs "goTime" ++ flat_map (fun a => 44 :: a) args ++ 125 :: rest)) =
    match time_fmt sample (key_of p) args with
    | inl f => Ok (Some (OFormatter f)) (str None (125 :: rest))
    | inr e => Ok None (str (Some e) (125 :: rest))
    end.
  Proof.
    intros p sp args sample fuel rest H T L. unfold parseVar.
    destruct H as (B & A & N & F & W & Q). pose proof (conj B (conj A (conj N (conj F (conj W Q))))) as H.
    rewrite T in Q. destruct Q as [Q1 Q2].
    assert (L2 : (6 + List.length sp + List.length args <= fuel)%nat) by (unfold need in L; rewrite T in L; lia).
    destruct fuel as [|[|fuel]]; try lia. cbn [Parse]. unfold bind.
    change (placeholder_ok p) in H.
    rewrite variablePrefix_str by (first [assumption | apply next_ascii; [lia|reflexivity]]).
    rewrite idParse_str by (first [assumption | apply next_ascii; [lia|reflexivity]]).
    cbn [parseLoop s_err str]. unfold bind at 1. rewrite (variableInfix_str p 44) by auto.
    change (44 =? 44) with true. cbv iota. cbn [fst snd]. change (1 <=? 0) with false. cbv iota.
    unfold bind at 1. unfold commaParse, bind at 1. rewrite Consume1_str.
    replace (upto (runes_text sp ++ bs "goTime" ++ flat_map (fun a => 44 :: a) args ++ 125 :: rest))
      with (str None (runes_text sp ++ bs "goTime" ++ flat_map (fun a => 44 :: a) args ++ 125 :: rest))
      by (unfold upto; destruct (runes_text sp); reflexivity).
    unfold bind at 1. rewrite parseFormatter_str by (auto; lia). cbn [fi_name fi_args].
    unfold bind, parseFunc. fold (time_fmt sample (key_of p) args). destruct (time_fmt sample (key_of p) args) as [f|e].
    - unfold ret at 2. unfold ret at 1. destruct fuel as [|fuel]; [lia|].
      cbn [parseLoop s_err str]. unfold bind. rewrite variableInfix_brace by lia. reflexivity.
    - unfold report, ret. destruct fuel as [|fuel]; [lia|]. reflexivity.
  Qed.

  Lemma placeholder_text_app : forall p rest, placeholder_text p ++ rest =
    123 :: runes_text (p_before p) ++ key_of p ++ runes_text (p_after p) ++
    match p_time p with
    | None => 125 :: rest
    | Some (sp, args) => 44 :: runes_text sp ++ bs "goTime" ++ flat_map (fun a => 44 :: a) args ++ 125 :: rest
    end.
  Proof.
    intros p rest. unfold placeholder_text. change (bs "{") with [123]. cbn [app]. rewrite <- !app_assoc. do 4 f_equal.
    destruct (p_time p) as [[sp args]|]; [|reflexivity]. change (bs ",") with [44]. cbn [app]. now rewrite <- !app_assoc.
  Qed.

  (** What leftCurlyToken.PrefixParse does with a placeholder. *)
  Definition ph_fmt (sample : list value) (p : placeholder) : option (formatter + err) :=
    match p_time p with
    | None => match var_fmt sample (key_of p) with Some f => Some (inl f) | None => None end
    | Some (_, args) => Some (time_fmt sample (key_of p) args)
    end.

  Lemma curly_str : forall p sample fuel rest, placeholder_ok p -> (need p <= fuel)%nat ->
    leftCurlyParse encoderOf trimSpace panicText fuel sample (str None (placeholder_text p ++ rest)) =
    match ph_fmt sample p with
    | None => Panic
    | Some (inl f) => Ok (Some f) (upto rest)
    | Some (inr e) => Ok None (str (Some e) (125 :: rest))
    end.
  Proof.
    intros p sample fuel rest H L. rewrite placeholder_text_app. unfold leftCurlyParse, bind at 1. rewrite Consume1_str.
    unfold ph_fmt. 
    replace (upto (runes_text (p_before p) ++ key_of p ++ runes_text (p_after p) ++
      match p_time p with None => 125 :: rest | Some (sp, args) => 44 :: runes_text sp ++ bs "goTime" ++ flat_map (fun a => 44 :: a) args ++ 125 :: rest end))
      with (str None (runes_text (p_before p) ++ key_of p ++ runes_text (p_after p) ++
      match p_time p with None => 125 :: rest | Some (sp, args) => 44 :: runes_text sp ++ bs "goTime" ++ flat_map (fun a => 44 :: a) args ++ 125 :: rest end)).
    2: { unfold upto. destruct (runes_text (p_before p)); [|reflexivity]. destruct (key_of p); [|reflexivity].
         destruct (runes_text (p_after p)); [|reflexivity]. destruct (p_time p) as [[? ?]|]; reflexivity. }
    unfold bind at 1. destruct (p_time p) as [[sp args]|] eqn:T.
    - rewrite parseVar_time by auto. destruct (time_fmt sample (key_of p) args) as [f|e]; [|reflexivity].
      cbn [s_err str]. unfold bind, ret. fold (str None (125 :: rest)). rewrite Consume1_str. reflexivity.
    - rewrite parseVar_plain by auto. cbn [s_err str]. fold (str None (125 :: rest)).
      pose proof (parseVariable_str sample (key_of p) (str None (125 :: rest)) eq_refl) as V.
      unfold bind. destruct (var_fmt sample (key_of p)) as [f|].
      + rewrite V. rewrite Consume1_str. reflexivity.
      + destruct V as [->|[s' ->]]; reflexivity.
  Qed.

  Lemma segment_curly : forall p sample fuel rest, placeholder_ok p -> (need p <= fuel)%nat ->
    parseSegment encoderOf trimSpace panicText fuel sample 0 (str None (placeholder_text p ++ rest)) =
    match ph_fmt sample p with
    | None => Panic
    | Some (inl f) => Ok (Some f) (upto rest)
    | Some (inr e) => Ok None (str (Some e) (125 :: rest))
    end.
  Proof.
    intros p sample fuel rest H L. unfold parseSegment. destruct fuel as [|[|fuel]]; try (unfold need in L; lia).
    rewrite Parse_noinfix. unfold bind.
    replace (lexerPrefixToken (str None (placeholder_text p ++ rest))) with (@Ok (option bool) (Some true) (str None (placeholder_text p ++ rest))).
    2: { rewrite placeholder_text_app. reflexivity. }
    now apply curly_str.
  Qed.

  Lemma segment_literal : forall l sample fuel rest, l <> [] -> ~ In 123 l -> match rest with [] => True | c :: _ => c = 123 end -> (2 <= fuel)%nat ->
    parseSegment encoderOf trimSpace panicText fuel sample 0 (str None (l ++ rest)) = Ok (Some (Fixed l)) (upto rest).
  Proof.
    intros l sample fuel rest N H Hr L. unfold parseSegment. destruct fuel as [|[|fuel]]; try lia.
    rewrite Parse_noinfix. unfold bind. destruct l as [|c l]; [congruence|].
    replace (lexerPrefixToken (str None ((c :: l) ++ rest))) with (@Ok (option bool) (Some false) (str None ((c :: l) ++ rest))).
    2: { unfold lexerPrefixToken, bind, Peek0, Peek1, ret. cbn [app s_current str]. destruct (Z.eqb_spec c 123); [exfalso; apply H; left; auto|reflexivity]. }
    unfold literalParse, bind. rewrite AnyExcept1_str by auto. reflexivity.
  Qed.

  (** * Whole templates *)
  Definition lit (l : bytes) : list formatter := match l with [] => [] | _ => [Fixed l] end.
  Definition mk (l : list formatter) : option formatter := match l with [] => None | [f] => Some f | _ => Some (Many l) end.
  Definition single (f : formatter) : Prop := match f with Many _ => False | _ => True end.

  Lemma merge_mk : forall l f s, Forall single l ->
    match mk l with None => ret (Some f) | Some g => merge g (Some f) end s = Ok (mk (l ++ [f])) s.
  Proof.
    intros l f s H. destruct l as [|a [|b l]]; [reflexivity| |].
    - inversion H as [|? ? Ha _]; subst. cbn [mk app merge]. destruct a; try reflexivity. destruct Ha.
    - reflexivity.
  Qed.

  Lemma loop_step : forall fuel inner sample l s f s', s_err s = None -> Forall single l ->
    parseSegment encoderOf trimSpace panicText inner sample 0 s = Ok (Some f) s' ->
    lexerLoop encoderOf trimSpace panicText (S fuel) inner sample (mk l) s =
    lexerLoop encoderOf trimSpace panicText fuel inner sample (mk (l ++ [f])) s'.
  Proof.
    intros fuel inner sample l s f s' E H P. cbn [lexerLoop]. rewrite E. unfold bind. rewrite P.
    pose proof (merge_mk l f s' H) as M. destruct (mk l); rewrite M; reflexivity.
  Qed.

  Lemma loop_end : forall fuel inner sample l, lexerLoop encoderOf trimSpace panicText (S fuel) inner sample l (upto []) = Ok l (upto []).
  Proof. reflexivity. Qed.

  (** The formatters of a list of parts, up to the first placeholder that has none. *)
  Fixpoint parts_fmts (sample : list value) (parts : list (bytes * placeholder)) : option (list formatter) :=
    match parts with
    | [] => Some []
    | (l, p) :: parts =>
      match ph_fmt sample p, parts_fmts sample parts with
      | Some (inl f), Some r => Some (lit l ++ f :: r)
      | _, _ => None
      end
    end.

  Lemma ph_single : forall sample p f, ph_fmt sample p = Some (inl f) -> single f.
  Proof.
    intros sample p f H. unfold ph_fmt in H. destruct (p_time p) as [[sp args]|].
    - injection H as H. unfold time_fmt, newFuncFormatter in H. change (bytes_eqb (bs "goTime") (bs "goTime")) with true in H. cbv iota in H.
      unfold GoTimeFormat_FormatterOf, obind in H. destruct (findValueIndex _ _) as [i|]; [|discriminate H].
      destruct (i =? -1); [discriminate H|]. destruct (at_ sample i) as [v|]; [|discriminate H]. destruct v; try discriminate H.
      injection H as <-. exact I.
    - unfold var_fmt in H. destruct (findValueIndex _ _) as [i|]; [|discriminate H]. destruct (i =? -1); [discriminate H|].
      destruct (at_ sample i) as [v|]; [|discriminate H]. destruct v; try (injection H as <-; exact I).
      destruct (encoderOf ty); [|discriminate H]. injection H as <-. exact I.
  Qed.

  Fixpoint needs (parts : list (bytes * placeholder)) : nat :=
    match parts with [] => 2 | (_, p) :: r => need p + needs r end.

  Lemma parts_head : forall parts e, match parts with [] => True | (l, _) :: _ => l = [] end -> (parts = [] -> e = []) ->
    match parts_text parts ++ e with [] => True | c :: _ => c = 123 end.
  Proof.
    intros [|[l p] parts] e H E.
    - rewrite E by auto. exact I.
    - subst l. reflexivity.
  Qed.

  Lemma literal_step : forall l rest fuel inner sample acc, ~ In 123 l -> Forall single acc -> match rest with [] => True | c :: _ => c = 123 end -> (2 <= inner)%nat ->
    lexerLoop encoderOf trimSpace panicText (match l with [] => 0 | _ => 1 end + fuel) inner sample (mk acc) (upto (l ++ rest)) =
    lexerLoop encoderOf trimSpace panicText fuel inner sample (mk (acc ++ lit l)) (upto rest).
  Proof.
    intros l rest fuel inner sample acc H Ha Hr L. destruct l as [|c l].
    - cbn [lit app Nat.add]. now rewrite app_nil_r.
    - change (1 + fuel)%nat with (S fuel). rewrite (loop_step fuel inner sample acc _ (Fixed (c :: l)) (upto rest)); auto.
      apply segment_literal; auto. discriminate.
  Qed.

  Definition lit_rounds (l : bytes) : nat := match l with [] => 0 | _ => 1 end.
  Fixpoint total_rounds (parts : list (bytes * placeholder)) : nat :=
    match parts with [] => 0 | (l, _) :: r => lit_rounds l + S (total_rounds r) end.

  Lemma upto_placeholder : forall p rest, upto (placeholder_text p ++ rest) = str None (placeholder_text p ++ rest).
  Proof. intros. rewrite placeholder_text_app. reflexivity. Qed.

  Lemma loop_parts : forall parts sample fuel inner acc rest, 
    Forall (fun x => ~ In 123 (fst x) /\ placeholder_ok (snd x)) parts -> Forall single acc -> (needs parts <= inner)%nat ->
    match parts_fmts sample parts with
    | Some fs => lexerLoop encoderOf trimSpace panicText (total_rounds parts + fuel) inner sample (mk acc) (upto (parts_text parts ++ rest)) =
                 lexerLoop encoderOf trimSpace panicText fuel inner sample (mk (acc ++ fs)) (upto rest) /\ Forall single fs
    | None => True
    end.
  Proof.
    induction parts as [|[l p] parts IH]; intros sample fuel inner acc rest H Ha L; cbn [parts_fmts].
    - cbn [total_rounds Nat.add parts_text flat_map app]. now rewrite app_nil_r.
    - inversion H as [|? ? [H1 H2] H']; subst. cbn [fst snd] in H1, H2. cbn [needs] in L.
      destruct (ph_fmt sample p) as [[f|]|] eqn:E; auto.
      specialize (IH sample fuel inner ((acc ++ lit l) ++ [f]) rest H').
      assert (S1 : Forall single (acc ++ lit l)).
      { apply Forall_app. split; auto. destruct l; constructor; [exact I|constructor]. }
      assert (S2 : Forall single ((acc ++ lit l) ++ [f])).
      { apply Forall_app. split; auto. constructor; [eapply ph_single; eauto|constructor]. }
      specialize (IH S2 ltac:(lia)).
      destruct (parts_fmts sample parts) as [fs|]; auto. destruct IH as [IH F].
      split; [|apply Forall_app; split; [destruct l; constructor; [exact I|constructor]|constructor; [eapply ph_single; eauto|auto]]].
      cbn [total_rounds parts_text flat_map fst snd]. rewrite <- !app_assoc. unfold lit_rounds.
      rewrite <- Nat.add_assoc. rewrite literal_step; auto.
      + rewrite upto_placeholder. cbn [Nat.add].
        rewrite (loop_step _ inner sample (acc ++ lit l) _ f (upto (parts_text parts ++ rest))); auto.
        * unfold parts_text in IH |- *. rewrite IH. f_equal. f_equal. rewrite <- !app_assoc. reflexivity.
        * rewrite segment_curly by (auto; lia). rewrite E. reflexivity.
      + rewrite placeholder_text_app. reflexivity.
      + unfold need in L. lia.
  Qed.

  (** A placeholder that cannot be compiled, after literals and placeholders that can. *)
  Lemma loop_panic : forall p sample fuel inner acc rest, placeholder_ok p -> (need p <= inner)%nat -> ph_fmt sample p = None ->
    lexerLoop encoderOf trimSpace panicText (S fuel) inner sample acc (upto (placeholder_text p ++ rest)) = Panic.
  Proof.
    intros p sample fuel inner acc rest H L E. rewrite upto_placeholder. cbn [lexerLoop s_err str]. unfold bind.
    fold (str None (placeholder_text p ++ rest)). rewrite segment_curly by auto. now rewrite E.
  Qed.

  (** * Format *)
  Lemma Format_many : forall l space kv,
    Format timeString timeFormat argsText (Many l) space kv =
    fold_left (fun acc f => obind acc (fun sp => Format timeString timeFormat argsText f sp kv)) l (Some space).
  Proof.
    assert (N : forall kv l, fold_left (fun acc f => obind acc (fun sp => Format timeString timeFormat argsText f sp kv)) l None = None).
    { intros kv l. induction l; cbn; auto. }
    induction l as [|f l IH]; intros space kv; [reflexivity|].
    change (Format timeString timeFormat argsText (Many (f :: l)) space kv) with
      (obind (Format timeString timeFormat argsText f space kv) (fun sp => Format timeString timeFormat argsText (Many l) sp kv)).
    cbn [fold_left obind]. destruct (Format timeString timeFormat argsText f space kv) as [sp|]; cbn [obind]; auto.
  Qed.

  Definition format_all (l : list formatter) (space : bytes) (kv : list value) : option bytes :=
    fold_left (fun acc f => obind acc (fun sp => Format timeString timeFormat argsText f sp kv)) l (Some space).

  Lemma format_all_cons : forall f l space kv, format_all (f :: l) space kv =
    obind (Format timeString timeFormat argsText f space kv) (fun sp => format_all l sp kv).
  Proof.
    intros f l space kv. unfold format_all. cbn [fold_left obind].
    destruct (Format timeString timeFormat argsText f space kv) as [sp|]; cbn [obind]; auto.
    induction l; cbn; auto.
  Qed.

  Lemma format_all_app : forall a b space kv, format_all (a ++ b) space kv = obind (format_all a space kv) (fun sp => format_all b sp kv).
  Proof.
    induction a as [|f a IH]; intros b space kv; [reflexivity|].
    cbn [app]. rewrite !format_all_cons. destruct (Format timeString timeFormat argsText f space kv) as [sp|]; cbn [obind]; auto.
  Qed.

  Lemma Format_mk : forall l g space kv, mk l = Some g -> Format timeString timeFormat argsText g space kv = format_all l space kv.
  Proof.
    intros l g space kv H. destruct l as [|a [|b l]]; [discriminate| |].
    - injection H as <-. rewrite format_all_cons. unfold format_all. cbn [fold_left].
      destruct (Format timeString timeFormat argsText a space kv); reflexivity.
    - injection H as <-. apply Format_many.
  Qed.

  Lemma format_lit : forall l space kv, format_all (lit l) space kv = Some (space ++ l).
  Proof. intros [|c l] space kv; cbn; [now rewrite app_nil_r|reflexivity]. Qed.
End Parsing.

(** * Looking up keys *)
Lemma find_value : forall kv i pre key, lenZ pre = i -> 
  match value_of kv key with
  | Some v => exists j, findFrom i kv key = Some j /\ 0 <= j /\ at_ (pre ++ kv) j = Some v
  | None => findFrom i kv key = None \/ findFrom i kv key = Some (-1) \/ exists j, findFrom i kv key = Some j /\ 0 <= j /\ at_ (pre ++ kv) j = None
  end.
Proof.
  fix IH 1. intros kv i pre key Hi. destruct kv as [|k [|v r]].
  - cbn [value_of findFrom]. right. left. reflexivity.
  - cbn [value_of]. destruct k; cbn [findFrom]; try (left; reflexivity).
    destruct (bytes_eqb s key); [|right; left; reflexivity]. right. right. exists (i + 1). split; auto.
    unfold lenZ in Hi. split; [lia|]. unfold at_. apply nth_error_None. rewrite app_length. cbn [List.length]. lia.
  - cbn [value_of findFrom]. destruct k; try (left; reflexivity).
    unfold bytes_eqb. destruct (list_eq_dec Z.eq_dec s key).
    + exists (i + 1). split; auto. unfold lenZ in Hi. split; [lia|]. unfold at_. replace (Z.to_nat (i + 1)) with (List.length pre + 1)%nat by lia.
      rewrite nth_error_app2 by lia. replace (List.length pre + 1 - List.length pre)%nat with 1%nat by lia. reflexivity.
    + specialize (IH r (i + 2) (pre ++ [VStr s; v]) key).
      assert (L : lenZ (pre ++ [VStr s; v]) = i + 2) by (unfold lenZ in *; rewrite app_length; cbn [List.length]; lia).
      specialize (IH L). rewrite <- app_assoc in IH. exact IH.
Qed.

Lemma find_index : forall kv key,
  match value_of kv key with
  | Some v => exists j, findValueIndex kv key = Some j /\ 0 <= j /\ at_ kv j = Some v
  | None => findValueIndex kv key = None \/ findValueIndex kv key = Some (-1) \/ exists j, findValueIndex kv key = Some j /\ 0 <= j /\ at_ kv j = None
  end.
Proof. intros kv key. exact (find_value kv 0 [] key eq_refl). Qed.
