(** Proofs about compile, Sprintf and the cache. *)
From Verif Require Import Base JsonStrSpec JsonStrModel JsonStrProofs ParseModel ParseSpec ParseProofs ParseReadProofs MsgfmtModel MsgfmtSpec
  MsgfmtBytesProofs MsgfmtProofs.

Arguments Returns {A}. Arguments Panics {A}. Arguments Unfinished {A}.

Section Top.
  Variable encoderOf : Z -> option (value -> option bytes).
  Variable timeString : Z -> bytes.
  Variable timeFormat : bytes -> Z -> bytes.
  Variable trimSpace : bytes -> bytes.
  Variable argsText : list value -> bytes.
  Variable panicText : bytes.
  Notation compile := (compile encoderOf trimSpace panicText).
  Notation Sprintf := (Sprintf encoderOf timeString timeFormat trimSpace argsText panicText).
  Notation Format := (Format timeString timeFormat argsText).
  Notation format_all := (format_all timeString timeFormat argsText).
  Notation ph_fmt := (ph_fmt encoderOf trimSpace panicText).
  Notation parts_fmts := (parts_fmts encoderOf trimSpace panicText).
  Notation lexerLoop := (lexerLoop encoderOf trimSpace panicText).
  Notation stands_for := (stands_for encoderOf timeString timeFormat trimSpace).
  Notation expands := (expands encoderOf timeString timeFormat trimSpace).

  Lemma NewSource_upto : forall t, t <> [] -> NewSourceString t = upto t.
  Proof. intros [|c t] H; [congruence|reflexivity]. Qed.

  Definition fuel_for (t : template) : nat := (total_rounds (t_parts t) + 2 + needs (t_parts t))%nat.

  Lemma parts_text_nil : forall parts, parts_text parts = [] -> parts = [].
  Proof.
    intros [|[l p] parts] H; auto. exfalso. cbn [parts_text flat_map fst snd] in H. rewrite <- app_assoc in H. rewrite placeholder_text_app in H.
    destruct l; discriminate H.
  Qed.

  Lemma fmts_nonempty : forall kv parts fs, parts_fmts kv parts = Some fs -> parts <> [] -> fs <> [].
  Proof.
    intros kv [|[l p] parts] fs H N; [congruence|]. cbn [MsgfmtProofs.parts_fmts] in H.
    destruct (ph_fmt kv p) as [[f|]|]; try discriminate H. destruct (parts_fmts kv parts); [|discriminate H].
    injection H as <-. destruct (lit l); discriminate.
  Qed.

  Lemma mk_nonempty : forall l, l <> [] -> exists g, mk l = Some g.
  Proof. intros [|a [|b l]] H; [congruence| |]; eexists; reflexivity. Qed.

  Lemma loop_last : forall e fuel inner sample acc, ~ In 123 e -> Forall single acc -> (2 <= inner)%nat -> (2 <= fuel)%nat ->
    lexerLoop fuel inner sample (mk acc) (upto e) = Ok (mk (acc ++ lit e)) (upto []).
  Proof.
    intros e fuel inner sample acc H A L F. destruct fuel as [|[|fuel]]; try lia.
    pose proof (literal_step encoderOf trimSpace panicText e [] (match e with [] => 2 | _ => 1 end + fuel) inner sample acc H A I L) as K.
    rewrite app_nil_r in K. replace (S (S fuel)) with ((match e with [] => 0 | _ => 1 end) + (match e with [] => 2 | _ => 1 end + fuel))%nat by (destruct e; lia).
    rewrite K. destruct e; reflexivity.
  Qed.

  Lemma compile_template : forall t kv fs, template_ok t -> template_text t <> [] -> parts_fmts kv (t_parts t) = Some fs ->
    exists g, mk (fs ++ lit (t_end t)) = Some g /\
      forall fuel, (fuel_for t <= fuel)%nat -> compile fuel (template_text t) kv = Ok g (upto []).
  Proof.
    intros [parts e] kv fs [Hp He] N E. cbn [t_parts t_end] in *.
    destruct (mk_nonempty (fs ++ lit e)) as (g & G).
    { unfold template_text in N. cbn [t_parts t_end] in N. destruct parts as [|x parts].
      - destruct e; [cbn in N; congruence|]. intros Q. apply app_eq_nil in Q as [_ Q]. discriminate Q.
      - intros Q. apply app_eq_nil in Q as [Q _]. revert Q. eapply fmts_nonempty; eauto. discriminate. }
    exists g. split; auto. intros fuel L. unfold fuel_for in L. cbn [t_parts] in L. unfold MsgfmtModel.compile, bind. rewrite NewSource_upto by auto.
    unfold template_text. cbn [t_parts t_end].
    pose proof (loop_parts encoderOf trimSpace panicText parts kv (fuel - total_rounds parts) fuel [] e Hp ltac:(constructor) ltac:(lia)) as K.
    rewrite E in K. destruct K as [K S1]. replace (total_rounds parts + (fuel - total_rounds parts))%nat with fuel in K by lia.
    cbn [mk app] in K. rewrite K. rewrite loop_last by (auto; lia). rewrite G. reflexivity.
  Qed.

  (** * Values *)
  Lemma format_value : forall kv key v s, value_of kv key = Some v -> shows encoderOf timeString v s ->
    exists f, var_fmt encoderOf kv key = Some f /\ forall space, Format f space kv = Some (space ++ s).
  Proof.
    intros kv key v s E H. pose proof (find_index kv key) as F. rewrite E in F. destruct F as (j & F & J & A).
    unfold var_fmt. rewrite F. replace (j =? -1) with false by lia. rewrite A.
    destruct H as [s|s B NL|t|ty s|ty x enc s HE HS].
    - eexists. split; [reflexivity|]. intros space. cbn [MsgfmtModel.Format]. rewrite A. reflexivity.
    - eexists. split; [reflexivity|]. intros space. cbn [MsgfmtModel.Format]. rewrite A. cbn [obind]. f_equal. now apply fmtWriteBytes_iff.
    - eexists. split; [reflexivity|]. intros space. cbn [MsgfmtModel.Format]. rewrite A. reflexivity.
    - eexists. split; [reflexivity|]. intros space. cbn [MsgfmtModel.Format]. rewrite A. reflexivity.
    - rewrite HE. eexists. split; [reflexivity|]. intros space. cbn [MsgfmtModel.Format]. rewrite A. cbn [obind]. now rewrite HS.
  Qed.

  Lemma format_time : forall kv key args t, value_of kv key = Some (VTime t) ->
    exists f, time_fmt trimSpace panicText kv key args = inl f /\
      forall space, Format f space kv = Some (space ++ timeFormat (layout_of trimSpace args) t).
  Proof.
    intros kv key args t E. pose proof (find_index kv key) as F. rewrite E in F. destruct F as (j & F & J & A).
    unfold time_fmt, newFuncFormatter. change (bytes_eqb (bs "goTime") (bs "goTime")) with true. cbv iota.
    unfold GoTimeFormat_FormatterOf, obind. rewrite F. replace (j =? -1) with false by lia. rewrite A.
    eexists. split; [reflexivity|]. intros space. cbn [MsgfmtModel.Format]. rewrite A. reflexivity.
  Qed.

  Lemma format_placeholder : forall kv p s, stands_for kv p s ->
    exists f, ph_fmt kv p = Some (inl f) /\ forall space, Format f space kv = Some (space ++ s).
  Proof.
    intros kv p s (v & E & H). unfold MsgfmtProofs.ph_fmt. destruct (p_time p) as [[sp args]|].
    - destruct H as (t & -> & ->). destruct (format_time kv (key_of p) args t E) as (f & -> & Q). eauto.
    - destruct (format_value kv (key_of p) v s E H) as (f & -> & Q). eauto.
  Qed.

  Lemma expands_fmts : forall kv parts e out, expands kv parts e out ->
    exists fs, parts_fmts kv parts = Some fs /\ forall space, format_all (fs ++ lit e) space kv = Some (space ++ out).
  Proof.
    intros kv parts e out H. induction H as [e|l p parts e s out H _ (fs & IH1 & IH2)].
    - exists []. split; auto. intros space. cbn [app]. apply format_lit.
    - destruct (format_placeholder kv p s H) as (f & F1 & F2).
      exists (lit l ++ f :: fs). cbn [MsgfmtProofs.parts_fmts]. rewrite F1, IH1. split; auto. intros space.
      rewrite <- app_assoc. rewrite format_all_app, format_lit. cbn [obind app]. rewrite format_all_cons, F2. cbn [obind].
      rewrite IH2. now rewrite <- !app_assoc.
  Qed.

  Lemma Sprintf_cold : forall fuel c text kv g s, load c text = None -> compile fuel text kv = Ok g s ->
    Sprintf fuel c text kv = (match Format g [] kv with Some t => Returns t | None => Panics end, (text, g) :: c).
  Proof. intros fuel c text kv g s L E. unfold MsgfmtModel.Sprintf, FormatterOf. now rewrite L, E. Qed.

  Lemma Sprintf_expands : forall t kv out c, template_ok t -> template_text t <> [] -> load c (template_text t) = None ->
    expands kv (t_parts t) (t_end t) out ->
    forall fuel, (fuel_for t <= fuel)%nat -> fst (Sprintf fuel c (template_text t) kv) = Returns out.
  Proof.
    intros t kv out c H N Lc X fuel L. destruct (expands_fmts _ _ _ _ X) as (fs & F1 & F2).
    destruct (compile_template t kv fs H N F1) as (g & G & K). rewrite (Sprintf_cold fuel c _ kv g _ Lc (K fuel L)). cbn [fst].
    rewrite (Format_mk _ _ _ _ _ [] kv G), F2. reflexivity.
  Qed.

  (** * Whether plain templates return *)
  Definition found (kv : list value) (x : bytes * placeholder) : Prop :=
    exists v, value_of kv (key_of (snd x)) = Some v /\ printable encoderOf v.

  Lemma var_found : forall kv key v, value_of kv key = Some v ->
    (printable encoderOf v -> exists f, var_fmt encoderOf kv key = Some f /\ single f /\ forall space, exists s, Format f space kv = Some s) /\
    (printable encoderOf v \/ ~ printable encoderOf v /\ (var_fmt encoderOf kv key = None \/ exists f, var_fmt encoderOf kv key = Some f /\ forall space, Format f space kv = None)).
  Proof.
    intros kv key v E. pose proof (find_index kv key) as F. rewrite E in F. destruct F as (j & F & J & A).
    unfold var_fmt. rewrite F. replace (j =? -1) with false by lia. rewrite A. destruct v as [s|s|t|ty o|ty x].
    - split; [|left; exact I]. intros _. eexists. split; [reflexivity|]. split; [exact I|]. intros space. cbn [MsgfmtModel.Format]. rewrite A. eexists. reflexivity.
    - split; [|left; exact I]. intros _. eexists. split; [reflexivity|]. split; [exact I|]. intros space. cbn [MsgfmtModel.Format]. rewrite A. eexists. reflexivity.
    - split; [|left; exact I]. intros _. eexists. split; [reflexivity|]. split; [exact I|]. intros space. cbn [MsgfmtModel.Format]. rewrite A. eexists. reflexivity.
    - cbn [printable]. split.
      + intros N. eexists. split; [reflexivity|]. split; [exact I|]. intros space. cbn [MsgfmtModel.Format]. rewrite A. cbn [obind stringOf]. destruct o; [|congruence]. eexists. reflexivity.
      + destruct o; [left; discriminate|right]. split; [auto|]. right. eexists. split; [reflexivity|]. intros space. cbn [MsgfmtModel.Format]. rewrite A. reflexivity.
    - cbn [printable]. split.
      + intros (enc & s & HE & HS). rewrite HE. eexists. split; [reflexivity|]. split; [exact I|]. intros space. cbn [MsgfmtModel.Format]. rewrite A. cbn [obind]. rewrite HS. eexists. reflexivity.
      + destruct (encoderOf ty) as [enc|] eqn:HE; [|right; split; [intros (enc & s & Q & _); discriminate Q|left; reflexivity]]. destruct (enc (VAny ty x)) as [s|] eqn:HS.
        * left. eauto.
        * right. split; [intros (enc' & s & Q & Q'); injection Q as <-; congruence|]. right. eexists. split; [reflexivity|]. intros space. cbn [MsgfmtModel.Format]. rewrite A. cbn [obind]. now rewrite HS.
  Qed.

  Lemma var_missing : forall kv key, value_of kv key = None -> var_fmt encoderOf kv key = None.
  Proof.
    intros kv key E. pose proof (find_index kv key) as F. rewrite E in F. unfold var_fmt.
    destruct F as [->|[->|(j & -> & J & A)]]; auto. replace (j =? -1) with false by lia. now rewrite A.
  Qed.

  (** All placeholders have a printable value, or some cannot be compiled, or formatting panics. *)
  Lemma plain_cases : forall kv parts, Forall (fun x => p_time (snd x) = None) parts ->
    (Forall (found kv) parts /\ exists fs, parts_fmts kv parts = Some fs /\ forall e space, exists s, format_all (fs ++ lit e) space kv = Some s) \/
    ~ Forall (found kv) parts /\ (parts_fmts kv parts = None \/
    exists fs, parts_fmts kv parts = Some fs /\ forall e space, format_all (fs ++ lit e) space kv = None).
  Proof.
    intros kv parts H. induction H as [|[l p] parts H1 _ IH].
    - left. split; [constructor|]. exists []. split; auto. intros e space. cbn [app]. rewrite format_lit. eauto.
    - cbn [snd] in H1. cbn [MsgfmtProofs.parts_fmts]. unfold MsgfmtProofs.ph_fmt. rewrite H1.
      destruct (value_of kv (key_of p)) as [v|] eqn:E.
      2: { right. rewrite var_missing by auto. split; auto. intros Q. inversion Q as [|? ? (v & Q1 & _) _]; subst. cbn [snd] in Q1. congruence. }
      destruct (var_found kv (key_of p) v E) as [V1 V2].
      destruct IH as [(IF & fs & IH1 & IH2)|[NF IH]].
      + rewrite IH1. destruct V2 as [P|[NP V]].
        * left. split; [constructor; [exists v; auto|auto]|]. destruct (V1 P) as (f & V & _ & VF). rewrite V. eexists. split; [reflexivity|].
          intros e space. rewrite <- app_assoc. rewrite format_all_app, format_lit. cbn [obind app]. rewrite format_all_cons.
          destruct (VF (space ++ l)) as (s & ->). cbn [obind]. apply IH2.
        * right. split.
          { intros Q. inversion Q as [|? ? (w & Q1 & Q2) _]; subst. cbn [snd] in Q1. rewrite E in Q1. injection Q1 as <-. auto. }
          destruct V as [V|(f & V & VF)]; rewrite V; auto. right. eexists. split; [reflexivity|]. intros e space.
          rewrite <- app_assoc. rewrite format_all_app, format_lit. cbn [obind app]. rewrite format_all_cons, VF. reflexivity.
      + right. split; [intros Q; inversion Q; auto|]. destruct (var_fmt encoderOf kv (key_of p)) as [f|]; auto.
        destruct IH as [IH|(fs & IH1 & IH2)]; [left; now rewrite IH|]. rewrite IH1. right. eexists. split; [reflexivity|]. intros e space.
        rewrite <- app_assoc. rewrite format_all_app, format_lit. cbn [obind app]. rewrite format_all_cons.
        destruct (Format f (space ++ l) kv); cbn [obind]; auto.
  Qed.

  Lemma plain_panic : forall kv parts fuel inner acc rest, Forall (fun x => p_time (snd x) = None) parts ->
    Forall (fun x => ~ In 123 (fst x) /\ placeholder_ok (snd x)) parts -> Forall single acc -> (needs parts <= inner)%nat -> (total_rounds parts <= fuel)%nat ->
    parts_fmts kv parts = None -> lexerLoop fuel inner kv (mk acc) (upto (parts_text parts ++ rest)) = Panic.
  Proof.
    intros kv parts. induction parts as [|[l p] parts IH]; intros fuel inner acc rest HP H HA L LF E; [discriminate E|].
    inversion HP as [|? ? HP1 HP']; subst. inversion H as [|? ? [H1 H2] H']; subst. cbn [fst snd] in *. cbn [needs] in L. cbn [total_rounds] in LF. unfold lit_rounds in LF.
    cbn [parts_text flat_map fst snd]. rewrite <- !app_assoc.
    set (r := match l with [] => 0%nat | _ => 1%nat end) in *.
    replace fuel with (r + S (fuel - S r))%nat by lia. unfold r at 1.
    rewrite literal_step; auto; [| rewrite placeholder_text_app; reflexivity | unfold need in L; lia].
    assert (S1 : Forall single (acc ++ lit l)).
    { apply Forall_app. split; auto. destruct l; constructor; [exact I|constructor]. }
    cbn [MsgfmtProofs.parts_fmts] in E. unfold MsgfmtProofs.ph_fmt in E at 1. rewrite HP1 in E.
    destruct (var_fmt encoderOf kv (key_of p)) as [f|] eqn:V.
    - assert (PF : ph_fmt kv p = Some (inl f)) by (unfold MsgfmtProofs.ph_fmt; now rewrite HP1, V).
      rewrite upto_placeholder. rewrite (loop_step encoderOf trimSpace panicText _ inner kv (acc ++ lit l) _ f (upto (parts_text parts ++ rest))); auto.
      + apply IH; auto; try lia.
        * apply Forall_app. split; auto. constructor; [eapply ph_single; eauto|constructor].
        * destruct (parts_fmts kv parts); [discriminate E|reflexivity].
      + unfold parts_text. rewrite segment_curly by (auto; lia). rewrite PF. reflexivity.
    - apply loop_panic; auto; [lia|]. unfold MsgfmtProofs.ph_fmt. now rewrite HP1, V.
  Qed.

  Lemma Sprintf_plain : forall t kv c, template_ok t -> plain_template t -> load c (template_text t) = None ->
    (template_text t <> [] /\ Forall (found kv) (t_parts t) /\ exists out, forall fuel, (fuel_for t <= fuel)%nat -> fst (Sprintf fuel c (template_text t) kv) = Returns out) \/
    ~ (template_text t <> [] /\ Forall (found kv) (t_parts t)) /\
    (forall fuel, (fuel_for t <= fuel)%nat -> fst (Sprintf fuel c (template_text t) kv) = Panics).
  Proof.
    intros t kv c H P Lc. destruct (list_eq_dec Z.eq_dec (template_text t) []) as [N|N].
    - right. split; [intros [Q _]; auto|]. intros fuel L. rewrite N in *. unfold MsgfmtModel.Sprintf, FormatterOf. rewrite Lc. destruct fuel as [|[|fuel]]; try (unfold fuel_for in L; lia). reflexivity.
    - destruct (plain_cases kv (t_parts t) P) as [(F & fs & E & Q)|[NF [E|(fs & E & Q)]]].
      + left. split; auto. split; auto. destruct (compile_template t kv fs H N E) as (g & G & K).
        destruct (Q (t_end t) []) as (out & O). exists out. intros fuel L.
        rewrite (Sprintf_cold fuel c _ kv g _ Lc (K fuel L)). cbn [fst]. now rewrite (Format_mk _ _ _ _ _ [] kv G), O.
      + right. split; [intros [_ Q]; auto|]. intros fuel L. unfold MsgfmtModel.Sprintf, FormatterOf. rewrite Lc. unfold MsgfmtModel.compile, bind. rewrite NewSource_upto by auto.
        unfold template_text, fuel_for in *. change None with (mk []) at 1. rewrite plain_panic; auto; try lia. apply H.
      + right. split; [intros [_ Q']; auto|]. destruct (compile_template t kv fs H N E) as (g & G & K). intros fuel L.
        rewrite (Sprintf_cold fuel c _ kv g _ Lc (K fuel L)). cbn [fst]. now rewrite (Format_mk _ _ _ _ _ [] kv G), Q.
  Qed.

  (** * Unterminated placeholders *)
  Lemma UnicodeSpace_end : forall l fuel count, space_runes l -> (List.length l < fuel)%nat ->
    exists n, UnicodeSpace fuel count (upto (runes_text l)) = Ok n (upto []).
  Proof.
    induction l as [|u l IH]; intros fuel count H L; (destruct fuel as [|fuel]; [cbn in L; lia|]).
    - eexists. reflexivity.
    - inversion H as [|? ? [Hu Su] H']; subst. rewrite (next_upto (fun _ => True)).
      2: { cbn [runes_text flat_map]. exists u. eexists. split; [reflexivity|auto]. }
      cbn [UnicodeSpace s_err str runes_text flat_map]. rewrite PeekRune_str by auto. rewrite Su. unfold bind. rewrite ConsumeN_rune.
      apply IH; auto. cbn in L. lia.
  Qed.

  Lemma curly_unfinished : forall fuel sample before name, space_runes before -> Forall name_rune name ->
    match name with r :: _ => unicodeIsSpace r = false | [] => True end -> (List.length before < fuel)%nat ->
    leftCurlyParse encoderOf trimSpace panicText fuel sample (str None (123 :: runes_text before ++ runes_text name)) = OutOfFuel.
  Proof.
    intros fuel sample before name HB HN HF L. unfold leftCurlyParse, bind at 1. rewrite Consume1_str. unfold bind at 1. unfold parseVar.
    destruct fuel as [|fuel]; [lia|]. cbn [Parse]. unfold bind at 1. unfold variablePrefixToken, bind at 1.
    assert (X : exists n, UnicodeSpace (S fuel) 0 (upto (runes_text before ++ runes_text name)) = Ok n (upto (runes_text name))).
    { destruct name as [|u name].
      - cbn [runes_text flat_map]. rewrite app_nil_r. apply UnicodeSpace_end; auto.
      - inversion HN as [|? ? (Hu & _) _]; subst.
        assert (NR : next_rune (fun u => unicodeIsSpace u = false) (runes_text (u :: name))) by (exists u; eexists; split; [reflexivity|auto]).
        rewrite (next_upto _ _ NR). rewrite (next_upto (fun _ => True)).
        + apply UnicodeSpace_str; auto.
        + destruct before as [|v before].
          * exists u. eexists. split; [reflexivity|auto].
          * inversion HB as [|? ? [Hv _] _]; subst. cbn [runes_text flat_map]. exists v. eexists. rewrite <- app_assoc. split; [reflexivity|auto]. }
    destruct X as (n & ->). unfold ret at 1. unfold bind at 1, idParse. unfold bind at 1.
    unfold upto. rewrite UnicodeRanges_unterminated; auto. intros N. destruct name as [|u name]; [congruence|].
    cbn [runes_text flat_map]. pose proof (utf8_nonempty u). destruct (utf8 u); [congruence|reflexivity].
  Qed.

  Lemma Sprintf_unfinished : forall t kv c before name, template_ok t -> Forall (found kv) (t_parts t) -> plain_template t ->
    space_runes before -> Forall name_rune name -> match name with r :: _ => unicodeIsSpace r = false | [] => True end ->
    let text := template_text t ++ bs "{" ++ runes_text before ++ runes_text name in
    load c text = None ->
    forall fuel, (fuel_for t + List.length before <= fuel)%nat -> fst (Sprintf fuel c text kv) = Unfinished.
  Proof.
    intros [parts e] kv c before name [Hp He] HF HP HB HN HS text Lc fuel L. unfold fuel_for in L. cbn [t_parts t_end] in *.
    unfold MsgfmtModel.Sprintf, FormatterOf. rewrite Lc. unfold MsgfmtModel.compile, bind.
    assert (T : text = parts_text parts ++ e ++ 123 :: runes_text before ++ runes_text name).
    { unfold text, template_text. cbn [t_parts t_end]. now rewrite <- app_assoc. }
    rewrite NewSource_upto.
    2: { rewrite T. intros Q. apply app_eq_nil in Q as [_ Q]. apply app_eq_nil in Q as [_ Q]. discriminate Q. }
    rewrite T.
    assert (X : exists fs, parts_fmts kv parts = Some fs).
    { clear - HF HP timeString timeFormat argsText. induction parts as [|[l p] parts IH]; [eexists; reflexivity|].
      inversion HF as [|? ? (v & E & P) HF']; subst. inversion HP as [|? ? HP1 HP']; subst. destruct (IH HF' HP') as (fs & IH1).
      cbn [MsgfmtProofs.parts_fmts]. unfold MsgfmtProofs.ph_fmt. cbn [snd] in *. rewrite HP1, IH1.
      destruct (proj1 (var_found kv (key_of p) v E) P) as (f & -> & _). eauto. }
    destruct X as (fs & E).
    pose proof (loop_parts encoderOf trimSpace panicText parts kv (fuel - total_rounds parts) fuel [] (e ++ 123 :: runes_text before ++ runes_text name) Hp ltac:(constructor) ltac:(lia)) as K.
    rewrite E in K. destruct K as [K S1]. replace (total_rounds parts + (fuel - total_rounds parts))%nat with fuel in K by lia.
    cbn [mk app] in K. rewrite K.
    replace (fuel - total_rounds parts)%nat with (match e with [] => 0 | _ => 1 end + S (fuel - total_rounds parts - S (match e with [] => 0 | _ => 1 end)))%nat by (destruct e; lia).
    rewrite literal_step by (auto; lia).
    rewrite upto_cons. cbn [MsgfmtModel.lexerLoop s_err str]. unfold bind at 1.
    change (mkSource None None (123 :: runes_text before ++ runes_text name) []) with (str None (123 :: runes_text before ++ runes_text name)).
    unfold parseSegment. destruct fuel as [|[|fuel]]; try lia. rewrite Parse_noinfix. unfold bind at 1.
    change (lexerPrefixToken (str None (123 :: runes_text before ++ runes_text name))) with (@Ok (option bool) (Some true) (str None (123 :: runes_text before ++ runes_text name))).
    cbv beta iota. rewrite curly_unfinished by (auto; lia). reflexivity.
  Qed.

  (** * The cache *)
  Lemma Parse_ext : forall V P I (PT : M (option P)) (IT : M (option I * Z)) (PP PP' : (Z -> M (option V)) -> P -> M (option V)) (IP IP' : (Z -> M (option V)) -> I -> option V -> M (option V)),
    (forall r r' t s, PP r t s = PP' r' t s) -> (forall r r' t l s, IP r t l s = IP' r' t l s) ->
    forall fuel prec s, Parse V P I PT IT PP IP fuel prec s = Parse V P I PT IT PP' IP' fuel prec s.
  Proof.
    intros V P I PT IT PP PP' IP IP' HP HI fuel prec s. destruct fuel as [|fuel]; auto. cbn [Parse]. unfold bind. destruct (PT s) as [[t|] s1| |]; auto.
    rewrite (HP _ (Parse V P I PT IT PP' IP' fuel)). destruct (PP' _ t s1) as [v s2| |]; auto.
    assert (LL : forall r r' n v s2, parseLoop V I IT IP r n prec v s2 = parseLoop V I IT IP' r' n prec v s2).
    { intros r r' n. induction n as [|n IH]; intros w s3; auto. cbn [parseLoop]. destruct (s_err s3); auto. unfold bind.
      destruct (IT s3) as [[tok pr] s4| |]; auto. cbn [fst snd]. destruct tok as [tok|]; auto. destruct (pr <=? prec); auto.
      rewrite (HI r r'). destruct (IP' r' tok w s4) as [w' s5| |]; auto. }
    apply LL.
  Qed.

  Lemma shape_find : forall a b i key pre pre', same_shape a b -> lenZ pre = i -> lenZ pre' = i ->
    findFrom i a key = findFrom i b key /\
    forall j, findFrom i a key = Some j -> j <> -1 -> option_map kind (at_ (pre ++ a) j) = option_map kind (at_ (pre' ++ b) j).
  Proof.
    fix IH 1. intros a b i key pre pre' H L L'. destruct a as [|k [|v a]], b as [|k' [|v' b]]; try (exfalso; exact H).
    - cbn [findFrom]. split; auto. intros j E N. congruence.
    - cbn [same_shape] in H. subst k'. split; auto. intros j E N. destruct k; cbn [findFrom] in E; try discriminate E.
      destruct (bytes_eqb s key); [|congruence]. injection E as <-. unfold lenZ in *. unfold at_.
      assert (X : forall (p : list value), Z.of_nat (List.length p) = i -> nth_error (p ++ [VStr s]) (Z.to_nat (i + 1)) = None).
      { intros p Q. apply nth_error_None. rewrite app_length. cbn [List.length]. lia. }
      now rewrite !X.
    - cbn [same_shape] in H. destruct H as (<- & K & H). destruct k; cbn [findFrom]; try (split; [auto|intros j E; discriminate E]).
      assert (L2 : lenZ (pre ++ [VStr s; v]) = i + 2) by (unfold lenZ in *; rewrite app_length; cbn [List.length]; lia).
      assert (L2' : lenZ (pre' ++ [VStr s; v']) = i + 2) by (unfold lenZ in *; rewrite app_length; cbn [List.length]; lia).
      specialize (IH a b (i + 2) key _ _ H L2 L2'). rewrite <- !app_assoc in IH. cbn [app] in IH.
      destruct (bytes_eqb s key); [|exact IH]. split; auto. intros j E N. injection E as <-. unfold at_, lenZ in *.
      assert (X : forall (p q : list value) w, Z.of_nat (List.length p) = i -> nth_error (p ++ VStr s :: w :: q) (Z.to_nat (i + 1)) = Some w).
      { intros p q w Q. replace (Z.to_nat (i + 1)) with (List.length p + 1)%nat by lia. rewrite nth_error_app2 by lia.
        replace (List.length p + 1 - List.length p)%nat with 1%nat by lia. reflexivity. }
      rewrite !X by auto. cbn [option_map]. now rewrite K.
  Qed.

  Lemma shape_index : forall a b key, same_shape a b -> findValueIndex a key = findValueIndex b key /\
    forall j, findValueIndex a key = Some j -> j <> -1 -> option_map kind (at_ a j) = option_map kind (at_ b j).
  Proof. intros a b key H. exact (shape_find a b 0 key [] [] H eq_refl eq_refl). Qed.

  Lemma parseVariable_shape : forall a b id s, same_shape a b -> parseVariable encoderOf a id s = parseVariable encoderOf b id s.
  Proof.
    intros a b id s H. destruct (shape_index a b id H) as [E K]. unfold parseVariable, bind, orPanic. rewrite <- E.
    destruct (findValueIndex a id) as [j|]; auto. unfold ret. destruct (Z.eqb_spec j (-1)) as [|N]; [reflexivity|].
    specialize (K j eq_refl N). destruct (at_ a j) as [v|], (at_ b j) as [v'|]; try discriminate K; auto.
    cbn [option_map] in K. injection K as K. destruct v, v'; try discriminate K; auto. cbn [kind] in K. injection K as ->. reflexivity.
  Qed.

  Lemma newFunc_shape : forall a b id name args, same_shape a b -> newFuncFormatter trimSpace panicText id name args a = newFuncFormatter trimSpace panicText id name args b.
  Proof.
    intros a b id name args H. destruct (shape_index a b id H) as [E K]. unfold newFuncFormatter. destruct (bytes_eqb name (bs "goTime")); auto.
    unfold GoTimeFormat_FormatterOf, obind. rewrite <- E. destruct (findValueIndex a id) as [j|]; auto.
    destruct (Z.eqb_spec j (-1)) as [|N]; auto. specialize (K j eq_refl N). destruct (at_ a j) as [v|], (at_ b j) as [v'|]; try discriminate K; auto.
    cbn [option_map] in K. injection K as K. destruct v, v'; try discriminate K; auto.
  Qed.

  Lemma parseSegment_shape : forall a b fuel s, same_shape a b ->
    parseSegment encoderOf trimSpace panicText fuel a 0 s = parseSegment encoderOf trimSpace panicText fuel b 0 s.
  Proof.
    intros a b fuel s H. unfold parseSegment. apply Parse_ext; auto. intros r r' t s1. destruct t; auto.
    unfold leftCurlyParse, bind. destruct (Consume1 123 s1) as [u s2| |]; auto. unfold parseVar.
    assert (X : Parse object unit unit (variablePrefixToken fuel) (variableInfixToken fuel) (fun _ _ => idParse fuel) (fun _ _ lft => commaParse trimSpace panicText fuel a lft) fuel 0 s2 =
                Parse object unit unit (variablePrefixToken fuel) (variableInfixToken fuel) (fun _ _ => idParse fuel) (fun _ _ lft => commaParse trimSpace panicText fuel b lft) fuel 0 s2).
    { apply Parse_ext; auto. intros q q' [] l s3. unfold commaParse, bind. destruct (Consume1 44 s3) as [u4 s4| |]; auto.
      destruct (parseFormatter fuel 0 s4) as [fi s5| |]; auto. destruct fi as [fi|]; auto. destruct l as [[id|]|]; auto.
      unfold parseFunc. now rewrite (newFunc_shape a b). }
    rewrite X. match goal with |- context [Parse ?A ?B ?C ?D ?E ?F ?G ?n ?p ?q] => destruct (Parse A B C D E F G n p q) as [o s3| |] end; auto.
    destruct (s_err s3); auto. destruct o as [[id|f]|]; auto. now rewrite (parseVariable_shape a b).
  Qed.

  Lemma lexerLoop_shape : forall a b fuel inner l s, same_shape a b -> lexerLoop fuel inner a l s = lexerLoop fuel inner b l s.
  Proof.
    intros a b fuel inner. induction fuel as [|fuel IH]; intros l s H; auto. cbn [MsgfmtModel.lexerLoop]. destruct (s_err s); auto. unfold bind.
    rewrite (parseSegment_shape a b) by auto. destruct (parseSegment _ _ _ inner b 0 s) as [f s1| |]; auto.
    destruct (match l with None => ret f | Some l0 => merge l0 f end s1) as [l' s2| |]; auto.
  Qed.

  Lemma compile_shape : forall a b fuel text, same_shape a b -> compile fuel text a = compile fuel text b.
  Proof. intros a b fuel text H. unfold MsgfmtModel.compile, bind. now rewrite (lexerLoop_shape a b). Qed.

  (** The cache after a history of calls, and what it knows. *)
  Fixpoint cache_after (fuel : nat) (c : cache) (h : list (bytes * list value)) : cache :=
    match h with
    | [] => c
    | (f, kv) :: h => cache_after fuel (snd (Sprintf fuel c f kv)) h
    end.

  Lemma cache_origin : forall fuel h c text g, load (cache_after fuel c h) text = Some g ->
    load c text = Some g \/ exists kv s, In (text, kv) h /\ compile fuel text kv = Ok g s.
  Proof.
    intros fuel h. induction h as [|[f kv] h IH]; intros c text g H; auto. cbn [cache_after] in H.
    destruct (IH _ _ _ H) as [K|(kv' & s & K1 & K2)]; [|right; exists kv', s; split; auto; right; auto].
    unfold MsgfmtModel.Sprintf, FormatterOf in K. destruct (load c f) as [g'|] eqn:E; [cbn [snd] in K; auto|].
    destruct (compile fuel f kv) as [g' s'| |] eqn:C; cbn [snd] in K; auto. cbn [load] in K.
    unfold bytes_eqb in K. destruct (list_eq_dec Z.eq_dec f text) as [->|]; auto. injection K as <-. right. exists kv, s'. split; auto. left; auto.
  Qed.

  Lemma Sprintf_history : forall fuel h text kv, (forall kv', In (text, kv') h -> same_shape kv' kv) ->
    fst (Sprintf fuel (cache_after fuel [] h) text kv) = fst (Sprintf fuel [] text kv).
  Proof.
    intros fuel h text kv H. unfold MsgfmtModel.Sprintf at 1, FormatterOf. destruct (load (cache_after fuel [] h) text) as [g|] eqn:E.
    - destruct (cache_origin fuel h [] text g E) as [K|(kv' & s & K1 & K2)]; [discriminate K|].
      rewrite (compile_shape _ _ fuel text (H kv' K1)) in K2. rewrite (Sprintf_cold fuel [] text kv g s eq_refl K2). reflexivity.
    - unfold MsgfmtModel.Sprintf, FormatterOf. cbn [load]. destruct (compile fuel text kv); reflexivity.
  Qed.
End Top.
