(** Proofs about the text formats. *)
From Verif Require Import Base JsonStrSpec JsonStrModel JsonStrProofs ParseModel ParseSpec ParseProofs ParseReadProofs MsgfmtModel MsgfmtSpec
  MsgfmtBytesProofs MsgfmtProofs MsgfmtTopProofs CountlogModel OutputModel OutputSpec.
From Verif Require StatsSpec.
Local Arguments Returns {A}. Local Arguments Panics {A}. Local Arguments Unfinished {A}.

(** * Lists of pairs *)
Lemma flat_cons : forall k v kvs, flat ((k, v) :: kvs) = VStr k :: v :: flat kvs.
Proof. reflexivity. Qed.
Lemma flat_app : forall a b, flat (a ++ b) = flat a ++ flat b.
Proof. intros. unfold StatsSpec.flat. apply flat_map_app. Qed.

Lemma alike_shape : forall a b, alike a b -> same_shape (flat a) (flat b).
Proof.
  intros a b H. induction H as [|[k v] [k' v'] a b [E K] _ IH]; [exact I|]. cbn [fst snd] in *. rewrite !flat_cons. cbn [same_shape]. subst. auto.
Qed.
Lemma alike_keys : forall a b, alike a b -> map fst a = map fst b.
Proof. intros a b H. induction H as [|x y a b [E _] _ IH]; [reflexivity|]. cbn [map]. now rewrite E, IH. Qed.
Lemma same_shape_refl : forall a, same_shape a a.
Proof. fix IH 1. intros [|k [|v a]]; cbn [same_shape]; auto. Qed.
Lemma same_shape_sym : forall a b, same_shape a b -> same_shape b a.
Proof. fix IH 1. intros [|k [|v a]] [|k' [|v' b]]; cbn [same_shape]; try tauto; auto. intros (A & B & C). auto. Qed.
Lemma same_shape_trans : forall a b c, same_shape a b -> same_shape b c -> same_shape a c.
Proof.
  fix IH 1. intros [|k [|v a]] [|k' [|v' b]] [|k'' [|v'' c]]; cbn [same_shape]; try tauto.
  - congruence.
  - intros (A & B & C) (D & E & F). repeat split; [congruence|congruence|eauto].
Qed.

Lemma value_of_flat : forall kvs k v, NoDup (map fst kvs) -> In (k, v) kvs -> value_of (flat kvs) k = Some v.
Proof.
  induction kvs as [|[k' v'] kvs IH]; intros k v N H; [destruct H|]. cbn [map fst] in N. inversion N as [|? ? NI N']; subst.
  rewrite flat_cons. cbn [value_of]. destruct H as [H|H].
  - injection H as <- <-. destruct (list_eq_dec Z.eq_dec k' k'); congruence.
  - destruct (list_eq_dec Z.eq_dec k' k) as [->|]; auto. contradiction NI. apply in_map_iff. exists (k, v). auto.
Qed.

Lemma value_of_app : forall kv e k v, value_of kv k = Some v -> value_of (kv ++ e) k = Some v.
Proof.
  fix IH 1. intros [|k' [|v' kv]] e k v H; try discriminate H.
  - destruct k'; discriminate H.
  - cbn [app value_of] in *. destruct k'; try discriminate H. destruct (list_eq_dec Z.eq_dec s k); auto.
Qed.

Lemma at_app : forall kv e j v, 0 <= j -> at_ kv j = Some v -> at_ (kv ++ e) j = Some v.
Proof. intros kv e j v J H. unfold at_ in *. rewrite nth_error_app1; auto. apply nth_error_Some. congruence. Qed.

Lemma findFrom_app : forall kv e i key j, 0 <= i -> findFrom i kv key = Some j -> j <> -1 -> at_ kv (j - i) <> None ->
  findFrom i (kv ++ e) key = Some j.
Proof.
  fix IH 1. intros [|k [|v kv]] e i key j I H N A; cbn [findFrom app] in *.
  - congruence.
  - destruct k; try discriminate H. destruct (bytes_eqb s key); [assumption|congruence].
  - destruct k; try discriminate H. destruct (bytes_eqb s key); auto. apply IH; auto; [lia|].
    intro Q. apply A. unfold at_ in *. assert (J : i + 2 <= j).
    { clear - H N. revert i j H N. revert kv. fix IH 1. intros [|k [|w kv]] i j H N; cbn [findFrom] in H.
      - congruence.
      - destruct k; try discriminate H. destruct (bytes_eqb s key); [injection H; lia|congruence].
      - destruct k; try discriminate H. destruct (bytes_eqb s key); [injection H; lia|]. specialize (IH kv (i + 2) j H N). lia. }
    replace (Z.to_nat (j - i)) with (S (S (Z.to_nat (j - (i + 2))))) by lia. exact Q.
Qed.

Lemma find_app : forall kv e key v, value_of kv key = Some v -> findValueIndex (kv ++ e) key = findValueIndex kv key.
Proof.
  intros kv e key v H. pose proof (find_index kv key) as F. rewrite H in F. destruct F as (j & F & J & A). rewrite F.
  apply findFrom_app; auto; [lia|lia|]. replace (j - 0) with j by lia. congruence.
Qed.

Section Texts.
  Variable encoderOf : Z -> option (value -> option bytes).
  Variable timeString : Z -> bytes.
  Variable timeFormat : bytes -> Z -> bytes.
  Variable trimSpace : bytes -> bytes.
  Variable argsText : list value -> bytes.
  Variable panicText : bytes.
  Variable decimal : Z -> bytes.
  Variable durationString : Z -> bytes.
  Variable int64Type : Z.
  Variable intType : Z.
  Notation compile := (compile encoderOf trimSpace panicText).
  Notation Format := (MsgfmtModel.Format timeString timeFormat argsText).
  Notation ph_fmt := (ph_fmt encoderOf trimSpace panicText).
  Notation parts_fmts := (parts_fmts encoderOf trimSpace panicText).
  Notation stands_for := (stands_for encoderOf timeString timeFormat trimSpace).
  Notation expands := (expands encoderOf timeString timeFormat trimSpace).
  Notation shows := (shows encoderOf timeString).
  Notation cache_after := (cache_after encoderOf timeString timeFormat trimSpace argsText panicText).
  Notation formatterOf := (formatterOf encoderOf trimSpace panicText).

  (** * Formatters and longer argument lists *)
  Lemma ph_fmt_app : forall kv e p s, stands_for kv p s -> ph_fmt (kv ++ e) p = ph_fmt kv p.
  Proof.
    intros kv e p s (v & V & _). pose proof (find_index kv (key_of p)) as F. rewrite V in F. destruct F as (j & F & J & A).
    pose proof (find_app kv e _ _ V) as FA. rewrite F in FA. unfold MsgfmtProofs.ph_fmt. destruct (p_time p) as [[sp args]|].
    - f_equal. unfold time_fmt, newFuncFormatter. destruct (bytes_eqb _ _); auto. unfold GoTimeFormat_FormatterOf, obind. rewrite F, FA.
      destruct (j =? -1); auto. rewrite A, (at_app _ e _ _ J A). reflexivity.
    - unfold var_fmt. rewrite F, FA. destruct (j =? -1); auto. rewrite A, (at_app _ e _ _ J A). reflexivity.
  Qed.

  Lemma stands_app : forall kv e p s, stands_for kv p s -> stands_for (kv ++ e) p s.
  Proof. intros kv e p s (v & V & H). exists v. split; auto. now apply value_of_app. Qed.
  Lemma expands_app : forall kv e parts l out, expands kv parts l out -> expands (kv ++ e) parts l out.
  Proof. intros kv e parts l out H. induction H; constructor; auto. now apply stands_app. Qed.
  Lemma parts_app : forall kv e parts l out, expands kv parts l out -> parts_fmts (kv ++ e) parts = parts_fmts kv parts.
  Proof.
    intros kv e parts l out H. induction H as [|lt p parts l s out X _ IH]; [reflexivity|]. cbn [MsgfmtProofs.parts_fmts].
    now rewrite (ph_fmt_app _ _ _ _ X), IH.
  Qed.

  (** What is compiled for a sample prints the expansion for every argument list of that shape, also if more follows. *)
  Lemma compiled : forall t sample kv e out fuel, template_ok t -> template_text t <> [] -> same_shape sample kv ->
    expands kv (t_parts t) (t_end t) out -> (fuel_for t <= fuel)%nat ->
    exists g s, compile fuel (template_text t) sample = Ok g s /\ forall space, Format g space (kv ++ e) = Some (space ++ out).
  Proof.
    intros t sample kv e out fuel T N SH X F. pose proof (expands_app kv e _ _ _ X) as XA.
    destruct (expands_fmts encoderOf timeString timeFormat trimSpace argsText panicText _ _ _ _ XA) as (fs & F1 & F2).
    rewrite (parts_app _ _ _ _ _ X) in F1.
    destruct (compile_template encoderOf trimSpace panicText t kv fs T N F1) as (g & G & K). exists g, (upto []). split.
    - rewrite (compile_shape encoderOf trimSpace panicText sample kv fuel _ SH). apply K. exact F.
    - intro space. rewrite (Format_mk _ _ _ _ _ space (kv ++ e) G). apply F2.
  Qed.

  (** * The cache *)
  (** All in the cache was compiled for one of these uses. *)
  Definition knows (fuel : nat) (c : cache) (u : uses) : Prop :=
    forall text g, load c text = Some g -> exists kv s, In (text, kv) u /\ compile fuel text kv = Ok g s.

  Lemma knows_history : forall fuel h, knows fuel (cache_after fuel [] h) h.
  Proof.
    intros fuel h text g L. destruct (cache_origin encoderOf timeString timeFormat trimSpace argsText panicText fuel h [] text g L) as [Q|Q]; [discriminate Q|exact Q].
  Qed.

  Lemma knows_more : forall fuel c u u', knows fuel c u -> incl u u' -> knows fuel c u'.
  Proof. intros fuel c u u' K I text g L. destruct (K _ _ L) as (kv & s & A & B). exists kv, s. auto. Qed.

  Lemma formatterOf_known : forall fuel c u text sample g s, knows fuel c u -> (forall a, In (text, a) u -> same_shape a sample) ->
    In (text, sample) u -> compile fuel text sample = Ok g s -> exists c', formatterOf fuel text sample c = (Returns g, c') /\ knows fuel c' u.
  Proof.
    intros fuel c u text sample g s K C I O. unfold OutputModel.formatterOf, FormatterOf. destruct (load c text) as [g'|] eqn:L.
    - destruct (K _ _ L) as (kv & s' & A & B). rewrite (compile_shape encoderOf trimSpace panicText _ _ fuel text (C kv A)) in B.
      rewrite O in B. injection B as <- _. exists c. auto.
    - rewrite O. eexists. split; [reflexivity|]. intros t g' L'. cbn [load] in L'. destruct (bytes_eqb text t) eqn:E.
      + apply bytes_eqb_eq in E. subst t. injection L' as <-. exists sample, s. auto.
      + exact (K _ _ L').
  Qed.

  (** * The template of a property *)
  Definition key_template (before middle : bytes) (runes : list Z) : template :=
    mkTemplate [(before ++ runes_text runes ++ middle, mkPlaceholder [] runes [] None)] [].

  Lemma key_text : forall before middle runes,
    template_text (key_template before middle runes) = property_format before middle (runes_text runes).
  Proof.
    intros. unfold template_text, key_template, property_format. cbn [t_parts t_end parts_text flat_map fst snd]. rewrite !app_nil_r.
    unfold placeholder_text, key_of. cbn [p_before p_name p_after p_time runes_text flat_map app]. rewrite <- !app_assoc. reflexivity.
  Qed.

  Lemma utf8_no_brace : forall u, is_scalar u -> u <> 123 -> ~ In 123 (utf8 u).
  Proof.
    intros u H N I. unfold is_scalar in H. unfold utf8 in I.
    destruct (Z.ltb_spec u 128); [destruct I as [I|[]]; lia|].
    pose proof (Z.mod_pos_bound u 64). pose proof (Z.mod_pos_bound (u / 64) 64). pose proof (Z.mod_pos_bound (u / 4096) 64).
    assert (0 <= u / 64 /\ 0 <= u / 4096 /\ 0 <= u / 262144) by (repeat split; apply Z.div_pos; lia).
    destruct (Z.ltb_spec u 2048); [cbn [In] in I; lia|]. destruct (Z.ltb_spec u 65536); cbn [In] in I; lia.
  Qed.

  Lemma name_no_brace : forall runes, Forall name_rune runes -> ~ In 123 (runes_text runes).
  Proof.
    intros runes H I. unfold runes_text in I. apply in_flat_map in I as (u & I & J). rewrite Forall_forall in H. destruct (H u I) as (A & B & C).
    revert J. apply utf8_no_brace; auto. intros ->. vm_compute in C. discriminate C.
  Qed.

  Lemma key_template_ok : forall before middle runes, ~ In 123 before -> ~ In 123 middle -> Forall name_rune runes ->
    match runes with r :: _ => unicodeIsSpace r = false | [] => True end -> template_ok (key_template before middle runes).
  Proof.
    intros before middle runes B M R F. split; cbn [t_parts t_end key_template]; [|intros []]. constructor; [|constructor]. cbn [fst snd]. split.
    - rewrite !in_app_iff. pose proof (name_no_brace runes R). tauto.
    - unfold placeholder_ok. cbn [p_before p_name p_after p_time]. repeat split; auto; try constructor. destruct runes; auto.
  Qed.

  (** One property: fuel for its format, and what it prints. *)
  Lemma property_compiled : forall before middle k v s kvs' e, ~ In 123 before -> before <> [] -> ~ In 123 middle -> name_key k ->
    NoDup (map fst kvs') -> In (k, v) kvs' -> shows v s ->
    exists n, forall fuel, (n <= fuel)%nat -> forall kvs, same_shape kvs (flat kvs') -> exists g s', compile fuel (property_format before middle k) kvs = Ok g s' /\
      forall space, Format g space (flat kvs' ++ e) = Some (space ++ before ++ k ++ middle ++ s).
  Proof.
    intros before middle k v s kvs' e B BN M (runes & -> & R & F) ND I S'. exists (fuel_for (key_template before middle runes)).
    intros fuel L kvs SH. rewrite <- key_text.
    assert (X : expands (flat kvs') (t_parts (key_template before middle runes)) (t_end (key_template before middle runes)) (before ++ runes_text runes ++ middle ++ s)).
    { cbn [key_template t_parts t_end]. replace (before ++ runes_text runes ++ middle ++ s) with ((before ++ runes_text runes ++ middle) ++ s ++ []).
      - constructor; [|constructor]. exists v. split; [|exact S']. unfold key_of. cbn [p_name]. now apply value_of_flat.
      - rewrite app_nil_r, <- !app_assoc. reflexivity. }
    apply compiled; auto.
    - now apply key_template_ok.
    - rewrite key_text. unfold property_format. destruct before; [congruence|discriminate].
  Qed.

  Notation hrfCtxLoop := (hrfCtxLoop encoderOf trimSpace panicText).
  Notation hrfSampleLoop := (hrfSampleLoop encoderOf trimSpace panicText).
  Notation compactLoop := (compactLoop encoderOf trimSpace panicText).
  Notation formatPieces := (formatPieces timeString timeFormat argsText durationString int64Type).
  Notation formatPiece := (formatPiece timeString timeFormat argsText durationString int64Type).
  Notation lines := (lines encoderOf timeString durationString int64Type).
  Notation fields := (fields encoderOf timeString).
  Notation message := (message encoderOf timeString timeFormat trimSpace).

  Lemma formatPieces_app : forall lc a b space ev,
    formatPieces lc (a ++ b) space ev = obind (formatPieces lc a space ev) (fun space => formatPieces lc b space ev).
  Proof.
    intros lc a. induction a as [|p a IH]; intros b space ev; [reflexivity|]. cbn [app OutputModel.formatPieces].
    destruct (formatPiece lc p space ev) as [x|]; [|reflexivity]. cbn [obind]. apply IH.
  Qed.

  (** Every use of the format is for a list of this shape. *)
  Definition agrees (u : uses) (format : bytes) (sample : list value) : Prop :=
    In (format, sample) u /\ forall a, In (format, a) u -> same_shape a sample.

  Lemma fbind_returns : forall A B (x : fm A) (f : A -> fm B) c a c', x c = (Returns a, c') -> fbind x f c = f a c'.
  Proof. intros A B x f c a c' E. unfold fbind. now rewrite E. Qed.

  Lemma ctxLoop_lines : forall kvs' e now, NoDup (map fst kvs') ->
    forall rest' out, incl rest' kvs' -> lines false now rest' out ->
    exists n, forall fuel, (n <= fuel)%nat -> forall kvs rest c u, alike kvs kvs' -> alike rest rest' -> knows fuel c u ->
      (forall k, In k (map fst rest) -> agrees u (hrfProp k) (flat kvs)) ->
      exists ps c', hrfCtxLoop fuel (flat kvs) (flat rest) c = (Returns ps, c') /\ knows fuel c' u /\
        forall lc ev cx space, EventContext ev = Some cx -> lc cx = Some (flat kvs' ++ e) -> formatPieces lc ps space ev = Some (space ++ out).
  Proof.
    intros kvs' e now ND rest'. induction rest' as [|[k v'] rest' IH]; intros out I L.
    - inversion L; subst. exists 0%nat. intros fuel _ kvs rest c u _ A K _. inversion A; subst. exists [], c. split; [reflexivity|]. split; [exact K|].
      intros. cbn. now rewrite app_nil_r.
    - inversion L as [|? ? s ? out' TK NK SH L'|? ? ? TT]; subst; [|discriminate TT].
      destruct (IH out') as (n1 & H1); [intros x X; apply I; right; exact X|exact L'|].
      destruct (property_compiled [10] (bs ": ") k v' s kvs' e) as (n2 & H2);
        [intros [Q|[]]; discriminate Q|discriminate|intro Q; vm_compute in Q; repeat destruct Q as [Q|Q]; discriminate Q || destruct Q|exact NK|exact ND|apply I; left; reflexivity|exact SH|].
      exists (n1 + n2)%nat. intros fuel F kvs rest0 c u AL A K AG. inversion A as [|[k0 v] ? rest ? [EK _] A']; subst. cbn [fst] in EK. subst k0.
      destruct (H2 fuel ltac:(lia) (flat kvs) (alike_shape _ _ AL)) as (g & s' & G & P).
      destruct (AG k) as [AI AA]; [left; reflexivity|].
      destruct (formatterOf_known fuel c u (hrfProp k) (flat kvs) g s' K AA AI G) as (c1 & F1 & K1).
      destruct (H1 fuel ltac:(lia) kvs rest c1 u AL A' K1) as (ps & c2 & F2 & K2 & P2). { intros x X. apply AG. right. exact X. }
      exists (PFixed dim :: PCtx g :: PFixed plain :: ps), c2. split; [|split; [exact K2|]].
      + rewrite flat_cons. cbn [OutputModel.hrfCtxLoop]. rewrite (fbind_returns _ _ _ _ _ _ _ F1). rewrite (fbind_returns _ _ _ _ _ _ _ F2). reflexivity.
      + intros lc ev cx space EC LC. cbn [OutputModel.formatPieces OutputModel.formatPiece obind]. rewrite EC, LC, P. cbn [obind].
        rewrite (P2 lc ev cx _ EC LC). f_equal. unfold grey, dim, plain. rewrite <- !app_assoc. reflexivity.
  Qed.

  Lemma at_flat : forall pre k v rest i, i = 2 * lenZ pre -> at_ (flat (pre ++ (k, v) :: rest)) (i + 1) = Some v.
  Proof.
    intros pre k v rest i ->. rewrite flat_app, flat_cons. unfold at_, lenZ.
    assert (Q : List.length (flat pre) = (2 * List.length pre)%nat).
    { induction pre as [|[a b] pre IH]; [reflexivity|]. rewrite flat_cons. cbn [List.length]. rewrite IH. lia. }
    replace (Z.to_nat (2 * Z.of_nat (List.length pre) + 1)) with (List.length (flat pre) + 1)%nat by (rewrite Q; lia).
    rewrite nth_error_app2 by lia. replace (List.length (flat pre) + 1 - List.length (flat pre))%nat with 1%nat by lia. reflexivity.
  Qed.

  Lemma sampleLoop_lines : forall kvs' now, NoDup (map fst kvs') ->
    forall rest' out, lines true now rest' out -> forall pre', kvs' = pre' ++ rest' ->
    exists n, forall fuel, (n <= fuel)%nat -> forall kvs rest c u, alike kvs kvs' -> alike rest rest' -> knows fuel c u ->
      (forall k, In k (map fst rest) -> agrees u (hrfProp k) (flat kvs)) ->
      exists ps c', hrfSampleLoop fuel (flat kvs) (2 * lenZ pre') (flat rest) c = (Returns ps, c') /\ knows fuel c' u /\
        forall lc ev space, Properties ev = flat kvs' -> Timestamp ev = now -> formatPieces lc ps space ev = Some (space ++ out).
  Proof.
    intros kvs' now ND rest'. induction rest' as [|[k v'] rest' IH]; intros out L pre' PR.
    - inversion L; subst. exists 0%nat. intros fuel _ kvs rest c u _ A K _. inversion A; subst. exists [], c. split; [reflexivity|]. split; [exact K|].
      intros. cbn. now rewrite app_nil_r.
    - assert (PR2 : kvs' = (pre' ++ [(k, v')]) ++ rest') by (rewrite <- app_assoc; exact PR).
      assert (LN : 2 * lenZ (pre' ++ [(k, v')]) = 2 * lenZ pre' + 2) by (unfold lenZ; rewrite app_length; cbn [List.length]; lia).
      inversion L as [|? ? s ? out' TK NK SH L'|start ? out' TT L' B]; subst.
      + destruct (IH out' L' _ PR2) as (n1 & H1). rewrite LN in H1.
        destruct (property_compiled [10] (bs ": ") k v' s (pre' ++ (k, v') :: rest') []) as (n2 & H2);
          [intros [Q|[]]; discriminate Q|discriminate|intro Q; vm_compute in Q; repeat destruct Q as [Q|Q]; discriminate Q || destruct Q|exact NK|exact ND|apply in_elt|exact SH|].
        exists (n1 + n2)%nat. intros fuel F kvs rest0 c u AL A K AG. inversion A as [|[k0 v] ? rest ? [EK _] A']; subst. cbn [fst] in EK. subst k0.
        destruct (H2 fuel ltac:(lia) (flat kvs) (alike_shape _ _ AL)) as (g & s' & G & P). rewrite app_nil_r in P.
        destruct (AG k) as [AI AA]; [left; reflexivity|].
        destruct (formatterOf_known fuel c u (hrfProp k) (flat kvs) g s' K AA AI G) as (c1 & F1 & K1).
        destruct (H1 fuel ltac:(lia) kvs rest c1 u AL A' K1) as (ps & c2 & F2 & K2 & P2). { intros x X. apply AG. right. exact X. }
        exists (PFixed dim :: PProp g :: PFixed plain :: ps), c2. split; [|split; [exact K2|]].
        * rewrite flat_cons. cbn [OutputModel.hrfSampleLoop]. rewrite (proj2 (bytes_eqb_neq k (bs "timer")) (TK eq_refl)).
          erewrite fbind_returns; [|erewrite fbind_returns; [|exact F1]; reflexivity]. rewrite (fbind_returns _ _ _ _ _ _ _ F2). reflexivity.
        * intros lc ev space EP ET. cbn [OutputModel.formatPieces OutputModel.formatPiece obind]. rewrite EP, P. cbn [obind].
          rewrite (P2 lc ev _ EP ET). f_equal. unfold grey, dim, plain. rewrite <- !app_assoc. reflexivity.
      + destruct (IH out' L' _ PR2) as (n1 & H1). rewrite LN in H1. exists n1. intros fuel F kvs rest0 c u AL A K AG.
        inversion A as [|[k0 v] ? rest ? [EK _] A']; subst. cbn [fst] in EK. subst k0.
        destruct (H1 fuel F kvs rest c u AL A' K) as (ps & c2 & F2 & K2 & P2). { intros x X. apply AG. right. exact X. }
        exists (PFixed dim :: PTimer (2 * lenZ pre' + 1) :: PFixed plain :: ps), c2. split; [|split; [exact K2|]].
        * rewrite flat_cons. cbn [OutputModel.hrfSampleLoop]. replace (bytes_eqb _ _) with true by reflexivity.
          erewrite fbind_returns; [|reflexivity]. rewrite (fbind_returns _ _ _ _ _ _ _ F2). reflexivity.
        * intros lc ev space EP ET. cbn [OutputModel.formatPieces OutputModel.formatPiece obind]. rewrite EP.
          rewrite (at_flat pre' (bs "timer") _ rest' _ eq_refl). rewrite Z.eqb_refl. cbn [obind]. rewrite ET.
          replace (int64 (now - start)) with (now - start).
          2: { unfold int64. rewrite Z.mod_small; lia. }
          rewrite (P2 lc ev _ EP ET). f_equal. unfold grey, dim, plain. rewrite <- !app_assoc. reflexivity.
  Qed.

  Lemma compactLoop_fields : forall kvs', NoDup (map fst kvs') ->
    forall rest' out, incl rest' kvs' -> fields rest' out ->
    exists n, forall fuel, (n <= fuel)%nat -> forall kvs rest c u, alike kvs kvs' -> alike rest rest' -> knows fuel c u ->
      (forall k, In k (map fst rest) -> agrees u (compactProp k) (flat kvs)) ->
      exists ps c', compactLoop fuel (flat kvs) (flat rest) c = (Returns ps, c') /\ knows fuel c' u /\
        forall lc ev space, Properties ev = flat kvs' -> formatPieces lc ps space ev = Some (space ++ out).
  Proof.
    intros kvs' ND rest'. induction rest' as [|[k v'] rest' IH]; intros out I L.
    - inversion L; subst. exists 0%nat. intros fuel _ kvs rest c u _ A K _. inversion A; subst. exists [], c. split; [reflexivity|]. split; [exact K|].
      intros. cbn. now rewrite app_nil_r.
    - inversion L as [|? ? s ? out' NK SH L']; subst.
      destruct (IH out') as (n1 & H1); [intros x X; apply I; right; exact X|exact L'|].
      destruct (property_compiled (bs "||") (bs "=") k v' s kvs' []) as (n2 & H2);
        [intro Q; vm_compute in Q; repeat destruct Q as [Q|Q]; discriminate Q || destruct Q|discriminate|intro Q; vm_compute in Q; repeat destruct Q as [Q|Q]; discriminate Q || destruct Q|exact NK|exact ND|apply I; left; reflexivity|exact SH|].
      exists (n1 + n2)%nat. intros fuel F kvs rest0 c u AL A K AG. inversion A as [|[k0 v] ? rest ? [EK _] A']; subst. cbn [fst] in EK. subst k0.
      destruct (H2 fuel ltac:(lia) (flat kvs) (alike_shape _ _ AL)) as (g & s' & G & P). rewrite app_nil_r in P.
      destruct (AG k) as [AI AA]; [left; reflexivity|].
      destruct (formatterOf_known fuel c u (compactProp k) (flat kvs) g s' K AA AI G) as (c1 & F1 & K1).
      destruct (H1 fuel ltac:(lia) kvs rest c1 u AL A' K1) as (ps & c2 & F2 & K2 & P2). { intros x X. apply AG. right. exact X. }
      exists (PProp g :: ps), c2. split; [|split; [exact K2|]].
      + rewrite flat_cons. cbn [OutputModel.compactLoop]. rewrite (fbind_returns _ _ _ _ _ _ _ F1). rewrite (fbind_returns _ _ _ _ _ _ _ F2). reflexivity.
      + intros lc ev space EP. cbn [OutputModel.formatPieces OutputModel.formatPiece obind]. rewrite EP, P. cbn [obind].
        rewrite (P2 lc ev _ EP). f_equal. rewrite <- !app_assoc. reflexivity.
  Qed.

  (** * The message *)
  Lemma cutPrefix_app : forall p s, cutPrefix p (p ++ s) = Some s.
  Proof. induction p as [|a p IH]; intro s; [reflexivity|]. cbn [app cutPrefix]. now rewrite Z.eqb_refl. Qed.
  Lemma cutPrefix_some : forall p s r, cutPrefix p s = Some r -> s = p ++ r.
  Proof.
    induction p as [|a p IH]; intros s r H; [injection H as ->; reflexivity|]. destruct s as [|b s]; [discriminate H|]. cbn [cutPrefix] in H.
    destruct (Z.eqb_spec a b); [subst|discriminate H]. cbn [app]. f_equal. auto.
  Qed.

  Notation eventPiece := (eventPiece encoderOf trimSpace panicText).
  Lemma eventPiece_message : forall call name kvs' m, message call name kvs' m ->
    exists n, forall fuel, (n <= fuel)%nat -> forall st kvs c u, SiteEvent st = name -> Sample st = flat kvs -> alike kvs kvs' ->
    knows fuel c u -> agrees u name (flat kvs) ->
    exists p c', eventPiece fuel call st c = (Returns p, c') /\ knows fuel c' u /\
      forall lc ev space, Properties ev = flat kvs' -> formatPiece lc p space ev = Some (space ++ m).
  Proof.
    intros call name kvs' m M. destruct M as [n E|n E|t out N1 N2 T E N X].
    - exists 0%nat. intros fuel _ st kvs c u EN ES AL K _. exists (PFixed n), c. split; [|split; [exact K|reflexivity]].
      unfold OutputModel.eventPiece. rewrite EN, E, cutPrefix_app. reflexivity.
    - exists 0%nat. intros fuel _ st kvs c u EN ES AL K _. exists (PFixed (call ++ n)), c. split; [|split; [exact K|reflexivity]].
      unfold OutputModel.eventPiece. rewrite EN, E. change (cutPrefix (bs "event!") (bs "callee!" ++ n)) with (@None bytes). rewrite cutPrefix_app. reflexivity.
    - exists (fuel_for t). intros fuel F st kvs c u EN ES AL K [AI AA]. rewrite E in N.
      destruct (compiled t (flat kvs) (flat kvs') [] out fuel T N (alike_shape _ _ AL) X F) as (g & s & G & P). rewrite <- E in G. rewrite app_nil_r in P.
      destruct (formatterOf_known fuel c u name (flat kvs) g s K AA AI G) as (c1 & F1 & K1).
      exists (PProp g), c1. split; [|split; [exact K1|]].
      + unfold OutputModel.eventPiece. rewrite EN. destruct (cutPrefix (bs "event!") name) as [r|] eqn:C1.
        { apply cutPrefix_some in C1. exfalso. eapply N1; eauto. }
        destruct (cutPrefix (bs "callee!") name) as [r|] eqn:C2.
        { apply cutPrefix_some in C2. exfalso. eapply N2; eauto. }
        rewrite ES. rewrite (fbind_returns _ _ _ _ _ _ _ F1). reflexivity.
      + intros lc ev space EP. cbn [OutputModel.formatPiece]. rewrite EP. apply P.
  Qed.

  Lemma formatError_text : forall before after space ev e, error_text before after (Err ev) e -> formatError before after space ev = Some (space ++ e).
  Proof.
    intros before after space ev e H. unfold error_text in H. unfold formatError. destruct (Err ev) as [[[|b t]|]|]; try (subst; now rewrite app_nil_r); [|destruct H].
    now subst.
  Qed.

  (** * The records *)
  Notation hrfFormatterOf := (hrfFormatterOf encoderOf trimSpace panicText decimal).
  Notation compactFormatterOf := (compactFormatterOf encoderOf trimSpace panicText decimal).
  Notation hrf_record := (hrf_record encoderOf timeString timeFormat trimSpace decimal durationString int64Type).
  Notation compact_record := (compact_record encoderOf timeString timeFormat trimSpace decimal).

  Lemma colored_empty : forall l, ColoredLevelName l = [].
  Proof.
    intro l. unfold ColoredLevelName, coloredNames. cbn [fold_left].
    repeat (match goal with |- context [if ?b then _ else _] => destruct b end); reflexivity.
  Qed.

  (** What the pieces for a site print. *)
  Definition hrf_uses_agree (u : uses) (name : bytes) (ctx kvs : list (bytes * value)) : Prop :=
    agrees u name (flat kvs) /\ (forall k, In k (map fst ctx) -> agrees u (hrfProp k) (flat ctx)) /\
    (forall k, In k (map fst kvs) -> agrees u (hrfProp k) (flat kvs)).

  Definition hrf_out (show : bool) (st : site) (level now : Z) (m e c p : bytes) : bytes :=
    m ++ (if show then [10] ++ grey (bs "timestamp: " ++ timeFormat (bs "15:04:05.000") now) else []) ++ e ++ c ++ p
    ++ grey (if 40 <=? level then [10] ++ bs "location: " ++ place decimal st else []) ++ [10].

  Lemma hrf_prints : forall show name kvs' ctx' e now m c p,
    NoDup (map fst kvs') -> NoDup (map fst ctx') -> message [] name kvs' m -> lines false now ctx' c -> lines true now kvs' p ->
    exists n, forall fuel, (n <= fuel)%nat -> forall lc st kvs ctx c0 u,
    SiteEvent st = name -> Sample st = flat kvs -> alike kvs kvs' ->
    match LogContext lc st with None => ctx = [] | Some p => p = flat ctx end -> alike ctx ctx' ->
    knows fuel c0 u -> hrf_uses_agree u name ctx kvs ->
    exists ps c', hrfFormatterOf lc show fuel st c0 = (Returns ps, c') /\ knows fuel c' u /\
      forall lc' ev space et, error_text ([10; 27] ++ bs "[90;1merror: ") ([27] ++ bs "[0m") (Err ev) et -> Timestamp ev = now -> Properties ev = flat kvs' ->
        (ctx = [] \/ exists cx, EventContext ev = Some cx /\ lc' cx = Some (flat ctx' ++ e)) ->
        formatPieces lc' ps space ev = Some (space ++ hrf_out show st (Level ev) now m et c p).
  Proof.
    intros show name kvs' ctx' e now m c p ND NDC M LC' LP.
    destruct (eventPiece_message [] name kvs' m M) as (n1 & H1).
    destruct (ctxLoop_lines ctx' e now NDC ctx' c (incl_refl _) LC') as (n2 & H2).
    destruct (sampleLoop_lines kvs' now ND kvs' p LP [] eq_refl) as (n3 & H3).
    exists (n1 + n2 + n3)%nat. intros fuel F lc st kvs ctx c0 u EN ES AL LC ALC K (A1 & A2 & A3).
    destruct (H1 fuel ltac:(lia) st kvs c0 u EN ES AL K A1) as (mp & c1 & F1 & K1 & P1).
    destruct (H2 fuel ltac:(lia) ctx ctx c1 u ALC ALC K1 A2) as (cp & c2 & F2 & K2 & P2).
    destruct (H3 fuel ltac:(lia) kvs kvs c2 u AL AL K2 A3) as (sp & c3 & F3 & K3 & P3).
    assert (F2' : exists cp', (match LogContext lc st with None => fret [] | Some props => hrfCtxLoop fuel props props end) c1 = (Returns cp', c2)
      /\ forall lc' ev space, (ctx = [] \/ exists cx, EventContext ev = Some cx /\ lc' cx = Some (flat ctx' ++ e)) ->
        formatPieces lc' cp' space ev = Some (space ++ c)).
    { destruct ctx as [|x ctx].
      - inversion ALC; subst. inversion LC'; subst. cbn [StatsSpec.flat flat_map OutputModel.hrfCtxLoop fret] in F2. injection F2 as <- <-.
        exists []. split; [destruct (LogContext lc st); subst; reflexivity|]. intros. cbn. now rewrite app_nil_r.
      - destruct (LogContext lc st) as [pr|]; [|discriminate LC]. subst pr. exists cp. split; [exact F2|].
        intros lc' ev space [Q|(cx & Q1 & Q2)]; [discriminate Q|]. exact (P2 lc' ev cx space Q1 Q2). }
    destruct F2' as (cp' & F2' & P2'). eexists. eexists. split; [|split; [exact K3|]].
    - unfold OutputModel.hrfFormatterOf. rewrite (fbind_returns _ _ _ _ _ _ _ F1). rewrite (fbind_returns _ _ _ _ _ _ _ F2').
      rewrite ES. change 0 with (2 * lenZ (@nil (bytes * value))). rewrite (fbind_returns _ _ _ _ _ _ _ F3). reflexivity.
    - intros lc' ev space et ER ET EP EC. cbn [app OutputModel.formatPieces]. cbn [OutputModel.formatPiece]. rewrite colored_empty, app_nil_r.
      cbn [obind]. rewrite (P1 lc' ev space EP). cbn [obind].
      rewrite formatPieces_app.
      assert (TS : formatPieces lc' (if show then [PFixed (10 :: dim ++ bs "timestamp: "); PTimestamp; PFixed plain] else []) (space ++ m) ev
        = Some (space ++ m ++ (if show then [10] ++ grey (bs "timestamp: " ++ timeFormat (bs "15:04:05.000") now) else []))).
      { destruct show; cbn [OutputModel.formatPieces OutputModel.formatPiece obind].
        - rewrite ET. f_equal. unfold grey, dim, plain. rewrite <- !app_assoc. reflexivity.
        - now rewrite app_nil_r. }
      rewrite TS. cbn [obind app OutputModel.formatPieces OutputModel.formatPiece].
      rewrite (formatError_text _ _ _ ev et ER). cbn [obind]. rewrite formatPieces_app, (P2' lc' ev _ EC). cbn [obind].
      rewrite formatPieces_app, (P3 lc' ev _ EP ET). cbn [obind OutputModel.formatPieces OutputModel.formatPiece].
      unfold LevelWarn, hrf_out. f_equal. destruct (40 <=? Level ev); unfold grey, dim, plain, Location, place; rewrite <- !app_assoc; cbn [app]; rewrite <- ?app_assoc; cbn [app]; rewrite <- ?app_assoc; reflexivity.
  Qed.

  Definition compact_out (st : site) (level now : Z) (m e p : bytes) : bytes :=
    bs "[" ++ LevelName level ++ bs "] [" ++ timeFormat (bs "2006-01-02T15:04:05Z07:00") now ++ bs "]"
    ++ bs "[" ++ place decimal st ++ bs "] " ++ m ++ e ++ p ++ [10].

  Lemma compact_prints : forall name kvs' m p, NoDup (map fst kvs') -> message (bs "call ") name kvs' m -> fields kvs' p ->
    exists n, forall fuel, (n <= fuel)%nat -> forall st kvs c u,
      SiteEvent st = name -> Sample st = flat kvs -> alike kvs kvs' -> knows fuel c u ->
      agrees u name (flat kvs) -> (forall k, In k (map fst kvs) -> agrees u (compactProp k) (flat kvs)) ->
    exists ps c', compactFormatterOf fuel st c = (Returns ps, c') /\ knows fuel c' u /\
      forall lc ev space et, error_text (bs " error:") [] (Err ev) et -> Properties ev = flat kvs' ->
        formatPieces lc ps space ev = Some (space ++ compact_out st (Level ev) (Timestamp ev) m et p).
  Proof.
    intros name kvs' m p ND M LP.
    destruct (eventPiece_message (bs "call ") name kvs' m M) as (n1 & H1).
    destruct (compactLoop_fields kvs' ND kvs' p (incl_refl _) LP) as (n3 & H3).
    exists (n1 + n3)%nat. intros fuel F st kvs c0 u EN ES AL K A1 A3.
    destruct (H1 fuel ltac:(lia) st kvs c0 u EN ES AL K A1) as (mp & c1 & F1 & K1 & P1).
    destruct (H3 fuel ltac:(lia) kvs kvs c1 u AL AL K1 A3) as (sp & c3 & F3 & K3 & P3).
    eexists. eexists. split; [|split; [exact K3|]].
    - unfold OutputModel.compactFormatterOf. rewrite (fbind_returns _ _ _ _ _ _ _ F1). rewrite ES, (fbind_returns _ _ _ _ _ _ _ F3). reflexivity.
    - intros lc ev space et ER EP. cbn [app OutputModel.formatPieces]. cbn [OutputModel.formatPiece obind].
      rewrite (P1 lc ev _ EP). cbn [obind]. rewrite (formatError_text _ _ _ ev et ER). cbn [obind].
      rewrite formatPieces_app, (P3 lc ev _ EP). cbn [obind OutputModel.formatPieces OutputModel.formatPiece].
      f_equal. unfold compact_out, Location, place, RFC3339. rewrite <- !app_assoc. reflexivity.
  Qed.
End Texts.
