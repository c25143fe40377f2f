From Verif Require Import Base JsonIntModel DecimalSpec DecimalProofs JsonIntProofs JsonIntProps
  JsonStrModel JsonStrSpec JsonStrProofs JsonStrProps JsonFloatModel JsonFloatProps JsonSpec JsonCompModel JsonCompSpec.
From Coq Require Import Reals.
From Flocq Require Import Core IEEE754.Binary IEEE754.Bits.
Open Scope Z_scope.
Open Scope list_scope.

(** * The reader: more fuel does not change an answer *)
Lemma value_mono : forall n,
  (forall s x, value n s = Some x -> value (S n) s = Some x) /\
  (forall s x, elements n s = Some x -> elements (S n) s = Some x) /\
  (forall s x, members n s = Some x -> members (S n) s = Some x).
Proof.
  induction n as [|n (IHv & IHe & IHm)]; [repeat split; intros; discriminate|].
  repeat split; intros s x H.
  - cbn [value] in H. remember (S n) as sn. cbn [value]. subst sn.
    destruct (skip_ws s) as [|c r]; auto.
    repeat match goal with |- context [if ?b then _ else _] => destruct b; auto end.
    + destruct (skip_ws r) as [|d r']; auto. destruct (d =? 93); auto.
      destruct (elements n r) as [[l r'']|] eqn:E; [|discriminate]. rewrite (IHe _ _ E). exact H.
    + destruct (skip_ws r) as [|d r']; auto. destruct (d =? 125); auto.
      destruct (members n r) as [[l r'']|] eqn:E; [|discriminate]. rewrite (IHm _ _ E). exact H.
  - cbn [elements] in H. remember (S n) as sn. cbn [elements]. subst sn.
    destruct (value n s) as [[v r]|] eqn:E; [|discriminate]. rewrite (IHv _ _ E). cbn [obind] in *.
    destruct (skip_ws r) as [|c r']; auto. destruct (c =? 93); auto. destruct (c =? 44); auto.
    destruct (elements n r') as [[l r'']|] eqn:E2; [|discriminate]. rewrite (IHe _ _ E2). exact H.
  - cbn [members] in H. remember (S n) as sn. cbn [members]. subst sn.
    destruct (json_string (skip_ws s)) as [[k r]|] eqn:E; [|discriminate]. cbn [obind] in *.
    destruct (skip_ws r) as [|c r']; auto. destruct (c =? 58); auto.
    destruct (value n r') as [[v r'']|] eqn:E2; [|discriminate]. rewrite (IHv _ _ E2). cbn [obind] in *.
    destruct (skip_ws r'') as [|d r3]; auto. destruct (d =? 125); auto. destruct (d =? 44); auto.
    destruct (members n r3) as [[l r4]|] eqn:E3; [|discriminate]. rewrite (IHm _ _ E3). exact H.
Qed.

Lemma value_mono_le : forall n m s x, (n <= m)%nat -> value n s = Some x -> value m s = Some x.
Proof. intros n m s x H. induction H; auto. intros V. apply value_mono. auto. Qed.

Lemma parses_unique : forall text j1 j2, parses text j1 -> parses text j2 -> j1 = j2.
Proof.
  intros text j1 j2 (n1 & r1 & V1 & _) (n2 & r2 & V2 & _).
  apply (value_mono_le _ (Nat.max n1 n2)) in V1; [|lia]. apply (value_mono_le _ (Nat.max n1 n2)) in V2; [|lia].
  congruence.
Qed.

(** * Reading numbers *)
(** What may follow a number without being absorbed by it. *)
Definition stops (rest : bytes) : Prop :=
  match rest with [] => True | c :: _ => is_digit c = false /\ c <> 46 /\ c <> 101 /\ c <> 69 end.

Lemma span_digits_app : forall d rest, forallb is_digit d = true ->
  match rest with [] => True | c :: _ => is_digit c = false end ->
  span_digits (d ++ rest) = (d, rest).
Proof.
  induction d as [|c d IH]; intros rest D R.
  - cbn [app]. destruct rest as [|c r]; auto. cbn. now rewrite R.
  - cbn [forallb] in D. apply andb_true_iff in D as [D1 D2]. cbn [app span_digits]. rewrite D1, IH by auto. reflexivity.
Qed.

Lemma lex_exp_stops : forall rest, stops rest -> lex_exp rest = Some ([], rest).
Proof.
  intros [|c r] H; auto. cbn in H. unfold lex_exp.
  destruct (c =? 101) eqn:E1; [lia|]. destruct (c =? 69) eqn:E2; [lia|]. reflexivity.
Qed.
Lemma lex_frac_stops : forall rest, stops rest -> lex_frac rest = Some ([], rest).
Proof.
  intros [|c r] H; auto. cbn in H. unfold lex_frac. destruct (c =? 46) eqn:E1; [lia|]. reflexivity.
Qed.

Lemma lex_int_canon : forall t n rest, canon_nat t n ->
  match rest with [] => True | c :: _ => is_digit c = false end ->
  lex_int (t ++ rest) = Some (t, rest).
Proof.
  intros t n rest (N & D & V & Z0) R. destruct t as [|c t]; [congruence|].
  cbn [app lex_int]. destruct (c =? 48) eqn:E.
  - apply Z.eqb_eq in E. subst c. specialize (Z0 eq_refl). injection Z0 as ->. reflexivity.
  - cbn [forallb] in D. apply andb_true_iff in D as [D1 D2]. rewrite D1.
    change (c :: t ++ rest) with ((c :: t) ++ rest). rewrite span_digits_app; auto. cbn [forallb]. now rewrite D1.
Qed.

Definition num_text (t : bytes) : Prop :=
  exists sg ip fp, t = sg ++ ip ++ (match fp with [] => [] | _ => 46 :: fp end) /\
    (sg = [] \/ sg = [45]) /\ canon_nat ip (digits_value ip) /\ forallb is_digit fp = true.

Lemma canon_head : forall t n, canon_nat t n -> exists c r, t = c :: r /\ is_digit c = true.
Proof.
  intros t n (N & D & _). destruct t as [|c r]; [congruence|]. cbn in D. apply andb_true_iff in D as [D _]. eauto.
Qed.

Lemma lex_number_text : forall t rest, num_text t -> stops rest -> lex_number (t ++ rest) = Some (t, rest).
Proof.
  intros t rest (sg & ip & fp & -> & S & C & F) R. unfold lex_number.
  destruct (canon_head _ _ C) as (c & r & Ec & Dc).
  assert (M : lex_minus ((sg ++ ip ++ (match fp with [] => [] | _ => 46 :: fp end)) ++ rest)
              = (sg, ip ++ (match fp with [] => [] | _ => 46 :: fp end) ++ rest)).
  { destruct S as [-> | ->].
    - cbn [app]. rewrite <- app_assoc, Ec. cbn [app lex_minus]. destruct (c =? 45) eqn:E; auto.
      apply Z.eqb_eq in E. subst. discriminate.
    - cbn [app lex_minus]. cbn [Z.eqb Pos.eqb]. now rewrite <- app_assoc. }
  rewrite M. erewrite lex_int_canon; [|exact C|].
  2:{ destruct fp; cbn [app]; [|reflexivity]. destruct rest; auto. apply R. }
  cbn [obind]. destruct fp as [|d fp].
  - cbn [app]. rewrite lex_frac_stops by auto. cbn [obind]. rewrite lex_exp_stops by auto. cbn [obind].
    rewrite !app_nil_r. reflexivity.
  - cbn [app]. unfold lex_frac. cbn [Z.eqb Pos.eqb]. change (d :: fp ++ rest) with ((d :: fp) ++ rest).
    rewrite span_digits_app; auto.
    2:{ destruct rest; auto. apply R. }
    cbn [obind]. rewrite lex_exp_stops by auto. cbn [obind]. rewrite app_nil_r. reflexivity.
Qed.

Lemma num_text_head : forall t, num_text t -> exists c r, t = c :: r /\ (c = 45 \/ is_digit c = true).
Proof.
  intros t (sg & ip & fp & -> & S & C & F). destruct (canon_head _ _ C) as (c & r & -> & D).
  destruct S as [-> | ->]; cbn [app]; eauto.
Qed.

Lemma canon_int_text : forall t z, canon_int t z -> num_text t.
Proof.
  intros t z [[_ C]|[_ (t' & -> & C)]].
  - exists [], t, []. rewrite app_nil_r. split; auto. split; auto. split; auto.
    destruct C as (C1 & C2 & C3 & C4). repeat split; auto.
  - exists [45], t', []. rewrite app_nil_r. split; auto. split; auto. split; auto.
    destruct C as (C1 & C2 & C3 & C4). repeat split; auto.
Qed.

Lemma short_decimal_text : forall t neg q, short_decimal t neg q -> num_text t.
Proof.
  intros t neg q (ip & fp & -> & C & D & _). exists (if neg then [45] else []), ip, fp.
  split; [destruct neg, fp; reflexivity|]. split; [destruct neg; auto|]. auto.
Qed.

(** * Texts of values *)
(** A text that reads as [j], whatever follows, and starts like a value. *)
Definition starts (txt : bytes) : Prop :=
  exists c r, txt = c :: r /\ is_ws c = false /\ c <> 93 /\ c <> 125.
Definition reads (n : nat) (txt : bytes) (j : json) : Prop :=
  forall rest, stops rest -> value n (txt ++ rest) = Some (j, rest).

Lemma reads_le : forall n m txt j, (n <= m)%nat -> reads n txt j -> reads m txt j.
Proof. intros n m txt j H R rest S. eapply value_mono_le; eauto. Qed.

Lemma reads_num : forall t, num_text t -> reads 1 t (JNum t) /\ starts t.
Proof.
  intros t H. pose proof (lex_number_text t) as L. destruct (num_text_head t H) as (c & r & -> & Hc).
  assert (W : is_ws c = false /\ c <> 93 /\ c <> 125 /\ c <> 110 /\ c <> 116 /\ c <> 102 /\ c <> 34 /\ c <> 91 /\ c <> 123).
  { unfold is_ws, is_digit in *. destruct Hc as [->|Hc]; [repeat split; try lia; reflexivity|].
    apply andb_true_iff in Hc as [H1 H2]. repeat split; lia. }
  destruct W as (W & W1 & W2 & W3 & W4 & W5 & W6 & W7 & W8).
  split; [|exists c, r; auto].
  intros rest S. specialize (L rest H S). cbn [app] in *. cbn [value skip_ws]. rewrite W.
  replace (c =? 110) with false by lia. replace (c =? 116) with false by lia. replace (c =? 102) with false by lia.
  replace (c =? 34) with false by lia. replace (c =? 91) with false by lia. replace (c =? 123) with false by lia.
  rewrite L. reflexivity.
Qed.

Lemma reads_str : forall t s, (forall after, json_string (t ++ after) = Some (s, after)) ->
  reads 1 t (JStr s) /\ starts t.
Proof.
  intros t s H. assert (exists r, t = 34 :: r) as (r & ->).
  { specialize (H []). rewrite app_nil_r in H. destruct t as [|c r]; [discriminate|].
    unfold json_string in H. destruct (c =? 34) eqn:E; [|discriminate]. apply Z.eqb_eq in E. subst. eauto. }
  split; [|exists 34, r; repeat split; auto; lia].
  intros rest S. specialize (H rest). cbn [app] in *. cbn [value skip_ws]. change (is_ws 34) with false. cbv iota.
  cbn [Z.eqb Pos.eqb]. rewrite H. reflexivity.
Qed.

Lemma quoted_plain : forall s, Forall (fun b => ~ must_escape b) s ->
  forall after, json_string (([34] ++ s ++ [34]) ++ after) = Some (s, after).
Proof.
  intros s F after. cbn [app]. rewrite json_string_quote, <- app_assoc, body_plains.
  - cbn. now rewrite app_nil_r.
  - apply forallb_forall. intros b Hb. rewrite Forall_forall in F. apply plain_must. auto.
Qed.

(** Scalars *)
Lemma writeInt_ok : forall k z txt, int_range k z -> canon_int txt z ->
  forall space, writeInt k space z = Some (space ++ txt).
Proof.
  intros k z txt R C space.
  assert (W : writes_int (writeInt k space z) space z).
  { destruct k; cbn [writeInt int_range] in *.
    - now apply WriteInt8_ok.
    - now apply writes_pos, WriteUint8_ok.
    - now apply WriteInt16_ok.
    - now apply writes_pos, WriteUint16_ok.
    - now apply WriteInt32_ok.
    - now apply writes_pos, WriteUint32_ok.
    - now apply C01_int64.
    - now apply writes_pos, WriteUint64_ok. }
  destruct W as (t & E & C'). rewrite E. f_equal. f_equal. eapply canon_int_unique; eauto.
Qed.

Lemma fastLoop_shift : forall ok s a sp i idx,
  fastLoop ok (a ++ sp) i idx s = (a ++ fst (fastLoop ok sp i idx s), snd (fastLoop ok sp i idx s)).
Proof.
  induction s as [|c s IH]; intros a sp i idx; auto. cbn [fastLoop]. destruct (ok c); auto.
  rewrite <- app_assoc. apply IH.
Qed.

Lemma WriteString_app : forall space s, WriteString space s = space ++ WriteString [] s.
Proof.
  intros. unfold WriteString. rewrite fastLoop_shift. cbn [app].
  destruct (fastLoop _ [34] 0 0 s) as [x i]. cbn [fst snd].
  destruct (i =? lenZ s - 1); [now rewrite app_assoc|].
  rewrite !slowStr_spec. now rewrite <- !app_assoc.
Qed.

Lemma WriteBytes_app : forall space s, WriteBytes space s = space ++ WriteBytes [] s.
Proof.
  intros. unfold WriteBytes. rewrite fastLoop_shift. cbn [app].
  destruct (fastLoop _ [34] 0 0 s) as [x i]. cbn [fst snd].
  destruct (i =? lenZ s - 1); [now rewrite app_assoc|].
  rewrite !slowBytes_spec. now rewrite <- !app_assoc.
Qed.

Lemma good_string_text : forall s, good_string s ->
  exists t, (forall space, WriteString space s = space ++ t) /\ forall after, json_string (t ++ after) = Some (s, after).
Proof.
  intros s [O G]. rewrite <- first_escape_must in G.
  destruct (WriteString_decodes [] s O) as (t & u & E & D). exists t. split.
  - intros space. now rewrite WriteString_app, E.
  - intros after. destruct (D after) as [J [[_ ->]|[L _]]]; tauto.
Qed.

Lemma good_bytes_text : forall s, good_bytes s ->
  exists t, (forall space, WriteBytes space s = space ++ t) /\ forall after, json_string (t ++ after) = Some (display s, after).
Proof.
  intros s [O G]. destruct (WriteBytes_spec [] s O) as (t & u & E & D & _). exists t. split.
  - intros space. now rewrite WriteBytes_app, E.
  - apply (C05_bytes_exact_iff [] s O) in G. destruct G as (t' & E' & J'). rewrite E in E'. cbn in E'. subst t'.
    intros after. rewrite D. specialize (D []). rewrite app_nil_r in D. congruence.
Qed.

(** * Separated lists *)
Fixpoint sep (first : bool) (txts : list bytes) : bytes :=
  match txts with
  | [] => []
  | t :: r => (if first then [] else [44]) ++ t ++ sep false r
  end.

Lemma stops_close : forall c rest, c = 93 \/ c = 125 \/ c = 44 -> stops (c :: rest).
Proof. intros c rest [-> | [-> | ->]]; cbn; repeat split; lia. Qed.

Lemma stops_sep : forall txts c rest, c = 93 \/ c = 125 -> stops (sep false txts ++ c :: rest).
Proof. intros [|t txts] c rest H; cbn [sep app]; apply stops_close; tauto. Qed.

Lemma elements_sep : forall txts js n t j rest, reads n t j -> Forall2 (reads n) txts js ->
  elements (S (List.length txts + n)) (t ++ sep false txts ++ 93 :: rest) = Some (j :: js, rest).
Proof.
  induction txts as [|t' txts IH]; intros js n t j rest R F; inversion F as [|? j' ? js' R' F']; subst; cbn [elements].
  - cbn [List.length sep app Nat.add]. rewrite R by (apply stops_close; auto). reflexivity.
  - rewrite (reads_le n (List.length (t' :: txts) + n) _ _ ltac:(lia) R) by (cbn [sep app]; apply stops_close; auto).
    cbn [obind sep app skip_ws]. change (is_ws 44) with false. cbv iota. cbn [Z.eqb Pos.eqb].
    cbn [List.length Nat.add]. rewrite <- app_assoc. rewrite (IH _ _ _ _ _ R' F'). reflexivity.
Qed.

Lemma reads_array : forall txts js n, Forall starts txts -> Forall2 (reads n) txts js ->
  exists m, reads m ([91] ++ sep true txts ++ [93]) (JArr js).
Proof.
  intros txts js n Hst F. destruct F as [|t j txts js R F].
  - exists 1%nat. intros rest _. reflexivity.
  - exists (S (S (List.length txts + n))). intros rest _. inversion Hst as [|? ? St _]; subst.
    destruct St as (c & r & -> & W & N & _).
    remember (S (List.length txts + n)) as m eqn:Em. cbn [app value skip_ws].
    change (is_ws 91) with false. cbv iota. cbn [Z.eqb Pos.eqb app sep]. cbn [skip_ws]. rewrite W.
    destruct (c =? 93) eqn:E; [lia|]. subst m.
    replace (c :: ((r ++ sep false txts) ++ [93]) ++ rest) with ((c :: r) ++ sep false txts ++ 93 :: rest)
      by (cbn [app]; rewrite <- !app_assoc; reflexivity).
    rewrite (elements_sep _ _ _ _ _ _ R F). reflexivity.
Qed.

Definition reads_member (n : nat) (txt : bytes) (m : bytes * json) : Prop :=
  exists kt vt, txt = kt ++ 58 :: vt /\ (forall after, json_string (kt ++ after) = Some (fst m, after)) /\
    reads n vt (snd m).

Lemma json_string_head : forall t x, json_string t = Some x -> exists r, t = 34 :: r.
Proof.
  intros [|c r] x H; [discriminate|]. unfold json_string in H.
  destruct (c =? 34) eqn:E; [|discriminate]. apply Z.eqb_eq in E. subst. eauto.
Qed.

Lemma member_head : forall n t m, reads_member n t m -> exists r, t = 34 :: r.
Proof.
  intros n t m (kt & vt & -> & K & _). specialize (K []). rewrite app_nil_r in K.
  destruct (json_string_head _ _ K) as (r & ->). cbn. eauto.
Qed.

Lemma members_sep : forall txts ms n t m rest, reads_member n t m -> Forall2 (reads_member n) txts ms ->
  members (S (List.length txts + n)) (t ++ sep false txts ++ 125 :: rest) = Some (m :: ms, rest).
Proof.
  induction txts as [|t' txts IH]; intros ms n t m rest R F; inversion F as [|? m' ? ms' R' F']; subst; cbn [members].
  - cbn [List.length sep app Nat.add].
    destruct (member_head _ _ _ R) as (r & E). rewrite E. cbn [app skip_ws]. change (is_ws 34) with false. cbv iota.
    change (34 :: r ++ 125 :: rest) with ((34 :: r) ++ 125 :: rest). rewrite <- E.
    destruct R as (kt & vt & -> & K & V). rewrite <- app_assoc, K. cbn [obind app skip_ws].
    change (is_ws 58) with false. cbv iota. cbn [Z.eqb Pos.eqb].
    rewrite V by (apply stops_close; auto). cbn. destruct m; reflexivity.
  - destruct (member_head _ _ _ R) as (r & E). rewrite E. cbn [app skip_ws]. change (is_ws 34) with false. cbv iota.
    change (34 :: r ++ sep false (t' :: txts) ++ 125 :: rest) with ((34 :: r) ++ sep false (t' :: txts) ++ 125 :: rest). rewrite <- E.
    destruct R as (kt & vt & -> & K & V). rewrite <- app_assoc, K. cbn [obind app skip_ws].
    change (is_ws 58) with false. cbv iota. cbn [Z.eqb Pos.eqb].
    rewrite (reads_le n (List.length (t' :: txts) + n) _ _ ltac:(lia) V) by (cbn [sep app]; apply stops_close; auto).
    cbn [obind sep app skip_ws]. change (is_ws 44) with false. cbv iota. cbn [Z.eqb Pos.eqb].
    cbn [List.length Nat.add]. rewrite <- app_assoc. rewrite (IH _ _ _ _ _ R' F'). destruct m; reflexivity.
Qed.

Lemma reads_object : forall txts ms n, Forall2 (reads_member n) txts ms ->
  exists k, reads k ([123] ++ sep true txts ++ [125]) (JObj ms).
Proof.
  intros txts ms n F. destruct F as [|t m txts ms R F].
  - exists 1%nat. intros rest _. reflexivity.
  - exists (S (S (List.length txts + n))). intros rest _.
    remember (S (List.length txts + n)) as k eqn:Ek. cbn [app value skip_ws].
    change (is_ws 123) with false. cbv iota. cbn [Z.eqb Pos.eqb app sep].
    destruct (member_head _ _ _ R) as (r & E). rewrite E. cbn [app skip_ws]. change (is_ws 34) with false. cbv iota.
    cbn [Z.eqb Pos.eqb]. subst k.
    replace (34 :: ((r ++ sep false txts) ++ [125]) ++ rest) with (t ++ sep false txts ++ 125 :: rest)
      by (rewrite E; cbn [app]; rewrite <- !app_assoc; reflexivity).
    rewrite (members_sep _ _ _ _ _ _ R F). reflexivity.
Qed.

(** * What follows a text does not change how it reads *)
Lemma skip_ws_app : forall s rest, skip_ws s <> [] -> skip_ws (s ++ rest) = skip_ws s ++ rest.
Proof. induction s as [|c s IH]; intros rest H; [now elim H|]. cbn [app skip_ws] in *. destruct (is_ws c); auto. Qed.
Lemma skip_ws_blank : forall ws rest, forallb is_ws ws = true -> skip_ws (ws ++ rest) = skip_ws rest.
Proof.
  induction ws as [|c ws IH]; intros rest H; auto. cbn [forallb] in H. apply andb_true_iff in H as [H1 H2].
  cbn [app skip_ws]. rewrite H1. auto.
Qed.
Lemma skip_ws_split : forall s, exists ws, s = ws ++ skip_ws s /\ forallb is_ws ws = true.
Proof.
  induction s as [|c s (ws & E & W)]; [exists []; auto|]. cbn [skip_ws]. destruct (is_ws c) eqn:C; [|exists []; auto].
  exists (c :: ws). split; [cbn [app]; f_equal; exact E|]. cbn [forallb]. now rewrite C.
Qed.
Lemma strip_prefix_app : forall p s r rest, strip_prefix p s = Some r -> strip_prefix p (s ++ rest) = Some (r ++ rest).
Proof.
  induction p as [|a p IH]; intros s r rest H; [cbn in *; injection H as <-; reflexivity|]. destruct s as [|b s]; [discriminate|].
  cbn [app strip_prefix] in *. destruct (a =? b); [auto|discriminate].
Qed.
Lemma prepend_app : forall x o y r, prepend x o = Some (y, r) -> exists y', o = Some (y', r) /\ y = x ++ y'.
Proof. intros x [[y' r']|] y r H; [|discriminate]. cbn in H. injection H as <- <-. eauto. Qed.
Lemma string_body_app : forall n s x r rest, (List.length s <= n)%nat -> string_body s = Some (x, r) ->
  string_body (s ++ rest) = Some (x, r ++ rest).
Proof.
  induction n as [|n IH]; intros s x r rest L H; [destruct s; [discriminate|cbn in L; lia]|].
  destruct s as [|c s]; [discriminate|]. cbn [app string_body] in *.
  destruct (c =? 34); [injection H as <- <-; reflexivity|].
  destruct (c =? 92); [|destruct (c <? 32); [discriminate|]; apply prepend_app in H as (y & H & ->);
    rewrite (fun h => IH _ _ _ rest h H) by (cbn in L; lia); reflexivity].
  destruct s as [|e s]; [discriminate|]. cbn [app]. destruct (e =? 117).
  2:{ destruct (short_escape e); [|discriminate]. apply prepend_app in H as (y & H & ->).
      rewrite (fun h => IH _ _ _ rest h H) by (cbn in L; lia). reflexivity. }
  destruct s as [|h1 [|h2 [|h3 [|h4 s]]]]; try discriminate. cbn [app]. destruct (hex4 h1 h2 h3 h4) as [u|]; [|discriminate].
  destruct ((55296 <=? u) && (u <? 56320)).
  - destruct s as [|b [|u' [|l1 [|l2 [|l3 [|l4 s]]]]]]; try discriminate. cbn [app].
    destruct ((b =? 92) && (u' =? 117)); [|discriminate]. destruct (hex4 l1 l2 l3 l4) as [v|]; [|discriminate].
    destruct ((56320 <=? v) && (v <? 57344)); [|discriminate]. apply prepend_app in H as (y & H & ->).
    rewrite (fun h => IH _ _ _ rest h H) by (cbn in L; lia). reflexivity.
  - destruct ((56320 <=? u) && (u <? 57344)); [discriminate|]. apply prepend_app in H as (y & H & ->).
    rewrite (fun h => IH _ _ _ rest h H) by (cbn in L; lia). reflexivity.
Qed.
Lemma json_string_app : forall s x r rest, json_string s = Some (x, r) -> json_string (s ++ rest) = Some (x, r ++ rest).
Proof.
  intros [|c s] x r rest H; [discriminate|]. cbn [app]. unfold json_string in *. destruct (c =? 34); [|discriminate].
  eapply string_body_app; eauto.
Qed.
Lemma span_digits_more : forall s d r rest, stops rest -> span_digits s = (d, r) -> span_digits (s ++ rest) = (d, r ++ rest).
Proof.
  induction s as [|c s IH]; intros d r rest S H.
  - cbn in H. injection H as <- <-. cbn [app]. destruct rest as [|c rest]; auto. cbn. destruct S as [-> _]. reflexivity.
  - cbn [app span_digits] in *. destruct (is_digit c); [|injection H as <- <-; reflexivity].
    destruct (span_digits s) as [d' r'] eqn:E. injection H as <- <-. rewrite (IH _ _ _ S eq_refl). reflexivity.
Qed.
Lemma lex_number_app : forall s x r rest, stops rest -> lex_number s = Some (x, r) -> lex_number (s ++ rest) = Some (x, r ++ rest).
Proof.
  intros s x r rest S. unfold lex_number.
  assert (M : forall s, s <> [] -> lex_minus (s ++ rest) = (fst (lex_minus s), snd (lex_minus s) ++ rest)).
  { intros [|c q] N; [now elim N|]. cbn. destruct (c =? 45); reflexivity. }
  destruct s as [|c0 s0]; [discriminate|]. rewrite M by discriminate. destruct (lex_minus (c0 :: s0)) as [m r1]. cbn [fst snd].
  assert (J : forall q y q', lex_int q = Some (y, q') -> lex_int (q ++ rest) = Some (y, q' ++ rest)).
  { intros [|c q] y q' H; [discriminate|]. cbn [app lex_int] in *. destruct (c =? 48); [injection H as <- <-; reflexivity|].
    destruct (is_digit c); [|discriminate]. destruct (span_digits (c :: q)) as [d q2] eqn:E. injection H as <- <-.
    change (c :: q ++ rest) with ((c :: q) ++ rest). now rewrite (span_digits_more _ _ _ _ S E). }
  assert (Fr : forall q y q', lex_frac q = Some (y, q') -> lex_frac (q ++ rest) = Some (y, q' ++ rest)).
  { intros [|c q] y q' H; [injection H as <- <-; cbn [app]; now apply lex_frac_stops|]. cbn [app lex_frac] in *.
    destruct (c =? 46); [|injection H as <- <-; reflexivity]. destruct (span_digits q) as [d q2] eqn:E.
    rewrite (span_digits_more _ _ _ _ S E). destruct d; [discriminate|]. injection H as <- <-. reflexivity. }
  assert (Ex : forall q y q', lex_exp q = Some (y, q') -> lex_exp (q ++ rest) = Some (y, q' ++ rest)).
  { intros [|c q] y q' H; [injection H as <- <-; cbn [app]; now apply lex_exp_stops|]. cbn [app lex_exp] in *.
    destruct ((c =? 101) || (c =? 69)); [|injection H as <- <-; reflexivity].
    destruct q as [|d q]; [discriminate|]. cbn [app]. destruct ((d =? 43) || (d =? 45)).
    - destruct (span_digits q) as [e q2] eqn:E. rewrite (span_digits_more _ _ _ _ S E). destruct e; [discriminate|].
      injection H as <- <-. reflexivity.
    - destruct (span_digits (d :: q)) as [e q2] eqn:E. change (d :: q ++ rest) with ((d :: q) ++ rest).
      rewrite (span_digits_more _ _ _ _ S E). destruct e; [discriminate|]. injection H as <- <-. reflexivity. }
  intros H. destruct (lex_int r1) as [[i r2]|] eqn:E1; [|discriminate]. cbn [obind] in H.
  destruct (lex_frac r2) as [[f r3]|] eqn:E2; [|discriminate]. cbn [obind] in H.
  destruct (lex_exp r3) as [[e r4]|] eqn:E3; [|discriminate]. cbn [obind] in H. injection H as <- <-.
  rewrite (J _ _ _ E1). cbn [obind]. rewrite (Fr _ _ _ E2). cbn [obind]. rewrite (Ex _ _ _ E3). reflexivity.
Qed.

Lemma value_app : forall n,
  (forall s j r rest, stops rest -> value n s = Some (j, r) -> value n (s ++ rest) = Some (j, r ++ rest)) /\
  (forall s l r rest, stops rest -> elements n s = Some (l, r) -> elements n (s ++ rest) = Some (l, r ++ rest)) /\
  (forall s l r rest, stops rest -> members n s = Some (l, r) -> members n (s ++ rest) = Some (l, r ++ rest)).
Proof.
  induction n as [|n (IHv & IHe & IHm)]; [repeat split; intros; discriminate|].
  repeat split; intros s x q rest S H.
  - cbn [value] in *. destruct (skip_ws s) as [|c r] eqn:E; [discriminate|]. rewrite skip_ws_app, E by (rewrite E; discriminate). cbn [app].
    destruct (c =? 110); [|destruct (c =? 116); [|destruct (c =? 102); [|destruct (c =? 34); [|destruct (c =? 91); [|destruct (c =? 123)]]]]].
    + destruct (strip_prefix _ r) eqn:P; [|discriminate]. rewrite (strip_prefix_app _ _ _ rest P). cbn [obind] in *. injection H as <- <-; reflexivity.
    + destruct (strip_prefix _ r) eqn:P; [|discriminate]. rewrite (strip_prefix_app _ _ _ rest P). cbn [obind] in *. injection H as <- <-; reflexivity.
    + destruct (strip_prefix _ r) eqn:P; [|discriminate]. rewrite (strip_prefix_app _ _ _ rest P). cbn [obind] in *. injection H as <- <-; reflexivity.
    + destruct (json_string (c :: r)) as [[y r']|] eqn:P; [|discriminate]. change (c :: r ++ rest) with ((c :: r) ++ rest).
      rewrite (json_string_app _ _ _ rest P). cbn [obind] in *. injection H as <- <-; reflexivity.
    + destruct (skip_ws r) as [|d r'] eqn:E'; [discriminate|]. rewrite skip_ws_app, E' by (rewrite E'; discriminate). cbn [app].
      destruct (d =? 93); [injection H as <- <-; reflexivity|]. destruct (elements n r) as [[l r'']|] eqn:P; [|discriminate].
      rewrite (IHe _ _ _ rest S P). cbn [obind] in *. injection H as <- <-; reflexivity.
    + destruct (skip_ws r) as [|d r'] eqn:E'; [discriminate|]. rewrite skip_ws_app, E' by (rewrite E'; discriminate). cbn [app].
      destruct (d =? 125); [injection H as <- <-; reflexivity|]. destruct (members n r) as [[l r'']|] eqn:P; [|discriminate].
      rewrite (IHm _ _ _ rest S P). cbn [obind] in *. injection H as <- <-; reflexivity.
    + destruct (lex_number (c :: r)) as [[y r']|] eqn:P; [|discriminate]. change (c :: r ++ rest) with ((c :: r) ++ rest).
      rewrite (lex_number_app _ _ _ rest S P). cbn [obind] in *. injection H as <- <-; reflexivity.
  - cbn [elements] in *. destruct (value n s) as [[v r]|] eqn:P; [|discriminate]. rewrite (IHv _ _ _ rest S P). cbn [obind] in *.
    destruct (skip_ws r) as [|c r'] eqn:E; [discriminate|]. rewrite skip_ws_app, E by (rewrite E; discriminate). cbn [app].
    destruct (c =? 93); [injection H as <- <-; reflexivity|]. destruct (c =? 44); [|discriminate].
    destruct (elements n r') as [[l r'']|] eqn:P2; [|discriminate]. rewrite (IHe _ _ _ rest S P2). cbn [obind] in *. injection H as <- <-; reflexivity.
  - cbn [members] in *. destruct (json_string (skip_ws s)) as [[k r]|] eqn:P; [|discriminate].
    rewrite skip_ws_app by (intros N; rewrite N in P; discriminate). rewrite (json_string_app _ _ _ rest P). cbn [obind] in *.
    destruct (skip_ws r) as [|c r'] eqn:E; [discriminate|]. rewrite skip_ws_app, E by (rewrite E; discriminate). cbn [app].
    destruct (c =? 58); [|discriminate]. destruct (value n r') as [[v r2]|] eqn:P2; [|discriminate].
    rewrite (IHv _ _ _ rest S P2). cbn [obind] in *. destruct (skip_ws r2) as [|d r3] eqn:E2; [discriminate|].
    rewrite skip_ws_app, E2 by (rewrite E2; discriminate). cbn [app]. destruct (d =? 125); [injection H as <- <-; reflexivity|]. destruct (d =? 44); [|discriminate].
    destruct (members n r3) as [[l r4]|] eqn:P3; [|discriminate]. rewrite (IHm _ _ _ rest S P3). cbn [obind] in *. injection H as <- <-; reflexivity.
Qed.

(** A text that reads as [j] whatever follows, maybe with white space around it. *)
Definition wstarts (txt : bytes) : Prop := exists c r, skip_ws txt = c :: r /\ c <> 93 /\ c <> 125.
Definition wreads (n : nat) (txt : bytes) (j : json) : Prop :=
  forall rest, stops rest -> exists ws, value n (txt ++ rest) = Some (j, ws ++ rest) /\ forallb is_ws ws = true.

Lemma starts_wstarts : forall txt, starts txt -> wstarts txt.
Proof. intros txt (c & r & -> & W & A & B). exists c, r. cbn [skip_ws]. now rewrite W. Qed.
Lemma reads_wreads : forall n txt j, reads n txt j -> wreads n txt j.
Proof. intros n txt j R rest S. exists []. split; [apply R, S|reflexivity]. Qed.
Lemma wreads_le : forall n m txt j, (n <= m)%nat -> wreads n txt j -> wreads m txt j.
Proof. intros n m txt j H R rest S. destruct (R rest S) as (ws & V & W). exists ws. split; auto. eapply value_mono_le; eauto. Qed.

Lemma parses_wreads : forall txt j, parses txt j -> wstarts txt /\ exists n, wreads n txt j.
Proof.
  intros txt j (n & r & V & E). split.
  - unfold wstarts. destruct n as [|n]; [discriminate|]. cbn [value] in V. destruct (skip_ws txt) as [|c q]; [discriminate|].
    exists c, q. split; auto. split; intros ->; cbn in V; discriminate.
  - exists n. intros rest S. exists r. split; [now apply value_app|].
    destruct (skip_ws_split r) as (ws & Er & W). rewrite E, app_nil_r in Er. now subst.
Qed.

Lemma elements_wsep : forall txts js n t j rest, wreads n t j -> Forall2 (wreads n) txts js ->
  elements (S (List.length txts + n)) (t ++ sep false txts ++ 93 :: rest) = Some (j :: js, rest).
Proof.
  induction txts as [|t' txts IH]; intros js n t j rest R F; inversion F as [|? j' ? js' R' F']; subst; cbn [elements].
  - cbn [List.length sep app Nat.add]. destruct (R (93 :: rest)) as (ws & -> & W); [apply stops_close; auto|].
    cbn [obind]. rewrite skip_ws_blank by auto. reflexivity.
  - destruct (wreads_le n (List.length (t' :: txts) + n) _ _ ltac:(lia) R (sep false (t' :: txts) ++ 93 :: rest)) as (ws & -> & W);
      [cbn [sep app]; apply stops_close; auto|].
    cbn [obind]. rewrite skip_ws_blank by auto. cbn [sep app skip_ws]. change (is_ws 44) with false. cbv iota. cbn [Z.eqb Pos.eqb].
    cbn [List.length Nat.add]. rewrite <- app_assoc. rewrite (IH _ _ _ _ _ R' F'). reflexivity.
Qed.

Lemma wreads_array : forall txts js n, Forall wstarts txts -> Forall2 (wreads n) txts js ->
  exists m, reads m ([91] ++ sep true txts ++ [93]) (JArr js).
Proof.
  intros txts js n Hst F. destruct F as [|t j txts js R F].
  - exists 1%nat. intros rest _. reflexivity.
  - exists (S (S (List.length txts + n))). intros rest _. inversion Hst as [|? ? St _]; subst.
    destruct St as (c & r & Et & N & _).
    remember (S (List.length txts + n)) as m eqn:Em. cbn [app value skip_ws].
    change (is_ws 91) with false. cbv iota. cbn [Z.eqb Pos.eqb app sep]. rewrite <- !app_assoc.
    rewrite (skip_ws_app t) by (rewrite Et; discriminate). rewrite Et. cbn [app].
    destruct (c =? 93) eqn:E; [lia|]. subst m.
    rewrite (elements_wsep _ _ _ _ _ _ R F). reflexivity.
Qed.

Definition wreads_member (n : nat) (txt : bytes) (m : bytes * json) : Prop :=
  exists kt vt, txt = kt ++ 58 :: vt /\ (forall after, json_string (kt ++ after) = Some (fst m, after)) /\
    wreads n vt (snd m).

Lemma wmember_head : forall n t m, wreads_member n t m -> exists r, t = 34 :: r.
Proof.
  intros n t m (kt & vt & -> & K & _). specialize (K []). rewrite app_nil_r in K.
  destruct (json_string_head _ _ K) as (r & ->). cbn. eauto.
Qed.

Lemma members_wsep : forall txts ms n t m rest, wreads_member n t m -> Forall2 (wreads_member n) txts ms ->
  members (S (List.length txts + n)) (t ++ sep false txts ++ 125 :: rest) = Some (m :: ms, rest).
Proof.
  induction txts as [|t' txts IH]; intros ms n t m rest R F; inversion F as [|? m' ? ms' R' F']; subst; cbn [members].
  - cbn [List.length sep app Nat.add].
    destruct (wmember_head _ _ _ R) as (r & E). rewrite E. cbn [app skip_ws]. change (is_ws 34) with false. cbv iota.
    change (34 :: r ++ 125 :: rest) with ((34 :: r) ++ 125 :: rest). rewrite <- E.
    destruct R as (kt & vt & -> & K & V). rewrite <- app_assoc, K. cbn [obind app skip_ws].
    change (is_ws 58) with false. cbv iota. cbn [Z.eqb Pos.eqb].
    destruct (V (125 :: rest)) as (ws & -> & W); [apply stops_close; auto|]. cbn [obind].
    rewrite skip_ws_blank by auto. cbn. destruct m; reflexivity.
  - destruct (wmember_head _ _ _ R) as (r & E). rewrite E. cbn [app skip_ws]. change (is_ws 34) with false. cbv iota.
    change (34 :: r ++ sep false (t' :: txts) ++ 125 :: rest) with ((34 :: r) ++ sep false (t' :: txts) ++ 125 :: rest). rewrite <- E.
    destruct R as (kt & vt & -> & K & V). rewrite <- app_assoc, K. cbn [obind app skip_ws].
    change (is_ws 58) with false. cbv iota. cbn [Z.eqb Pos.eqb].
    destruct (wreads_le n (List.length (t' :: txts) + n) _ _ ltac:(lia) V (sep false (t' :: txts) ++ 125 :: rest)) as (ws & -> & W);
      [cbn [sep app]; apply stops_close; auto|].
    cbn [obind]. rewrite skip_ws_blank by auto.
    cbn [sep app skip_ws]. change (is_ws 44) with false. cbv iota. cbn [Z.eqb Pos.eqb].
    cbn [List.length Nat.add]. rewrite <- app_assoc. rewrite (IH _ _ _ _ _ R' F'). destruct m; reflexivity.
Qed.

Lemma wreads_object : forall txts ms n, Forall2 (wreads_member n) txts ms ->
  exists k, reads k ([123] ++ sep true txts ++ [125]) (JObj ms).
Proof.
  intros txts ms n F. destruct F as [|t m txts ms R F].
  - exists 1%nat. intros rest _. reflexivity.
  - exists (S (S (List.length txts + n))). intros rest _.
    remember (S (List.length txts + n)) as k eqn:Ek. cbn [app value skip_ws].
    change (is_ws 123) with false. cbv iota. cbn [Z.eqb Pos.eqb app sep].
    destruct (wmember_head _ _ _ R) as (r & E). rewrite E. cbn [app skip_ws]. change (is_ws 34) with false. cbv iota.
    cbn [Z.eqb Pos.eqb]. subst k.
    replace (34 :: ((r ++ sep false txts) ++ [125]) ++ rest) with (t ++ sep false txts ++ 125 :: rest)
      by (rewrite E; cbn [app]; rewrite <- !app_assoc; reflexivity).
    rewrite (members_wsep _ _ _ _ _ _ R F). reflexivity.
Qed.

(** * Field names *)
Section Types.
  Variable types : nat -> shape.
  Variable typeName : nat -> bytes.

  Lemma tag_name_iff : forall tag name, tag_name tag name <-> name = untilComma tag.
  Proof.
    intros tag name. unfold tag_name. split.
    - intros [N H]. revert tag H. induction name as [|c name IH]; intros tag H.
      + destruct H as [->|(o & ->)]; reflexivity.
      + destruct H as [->|(o & ->)]; cbn [app untilComma]; destruct (c =? 44) eqn:E;
          try (exfalso; apply N; left; lia); f_equal; apply IH; auto; cbn in N; tauto || eauto.
    - intros ->. induction tag as [|c tag [IH1 IH2]]; cbn [untilComma].
      + split; auto.
      + destruct (c =? 44) eqn:E.
        * split; auto. right. exists tag. apply Z.eqb_eq in E. subst. reflexivity.
        * split; [intros [H|H]; [lia|auto]|].
          destruct IH2 as [IH2|(o & IH2)]; [left; congruence|right; exists o; cbn; congruence].
  Qed.

  Definition visibleb (f : field) : bool :=
    isUpperLatin1 (hd 0 (f_name f)) && match types (f_type f) with SFunc | SChan => false | _ => true end.

  Lemma visible_iff : forall f, field_visible types f <-> visibleb f = true.
  Proof.
    intros f. unfold field_visible, visibleb, isUpperLatin1. rewrite andb_true_iff. split.
    - intros [(c & r & -> & H) [H1 H2]]. cbn [hd]. split.
      + destruct H as [H|[H N]]; apply orb_true_iff.
        * left. apply andb_true_iff; lia.
        * right. rewrite !andb_true_iff, negb_true_iff. lia.
      + destruct (types (f_type f)); congruence.
    - intros [H1 H2]. split.
      + destruct (f_name f) as [|c r]; [discriminate|]. cbn [hd] in H1. exists c, r. split; auto.
        apply orb_true_iff in H1. rewrite !andb_true_iff, negb_true_iff in H1. lia.
      + split; intros E; rewrite E in H2; discriminate.
  Qed.

  Lemma getFieldName_eq : forall f, getFieldName types f =
    if visibleb f then
      let part := untilComma (f_tag f) in
      if (lenZ part =? 1) && (hd 0 part =? 45) then []
      else if is_nil part then f_name f else part
    else [].
  Proof.
    intros f. unfold getFieldName, visibleb.
    destruct (isUpperLatin1 (hd 0 (f_name f))); cbn [negb andb]; auto.
    destruct (f_tag f) as [|c tg]; cbn [is_nil]; [|destruct (types (f_type f)); reflexivity].
    cbn [untilComma is_nil lenZ List.length]. destruct (types (f_type f)); reflexivity.
  Qed.

  Lemma dash_iff : forall p : bytes, (lenZ p =? 1) && (hd 0 p =? 45) = true <-> p = bs "-".
  Proof.
    intros p. rewrite andb_true_iff, !Z.eqb_eq. split.
    - intros [L H]. destruct p as [|c [|d p]]; try discriminate.
      + cbn in H. subst. reflexivity.
      + rewrite !lenZ_cons in L. pose proof (lenZ_nonneg p). lia.
    - intros ->. auto.
  Qed.

  Lemma field_json_some : forall f name, field_json types f (Some name) <->
    getFieldName types f = name /\ is_nil name = false.
  Proof.
    intros f name. rewrite getFieldName_eq. cbv zeta. split.
    - intros H. inversion H as [| |? V T|? ? V T N1 N2]; subst; pose proof V as V'; apply visible_iff in V'; rewrite V';
      apply tag_name_iff in T.
      + rewrite <- T. cbn. split; auto. destruct V as [(c & r & -> & _) _]. reflexivity.
      + rewrite <- T. destruct (_ && _) eqn:E.
        * apply dash_iff in E. congruence.
        * destruct name; [congruence|]. auto.
    - intros [H N]. destruct (visibleb f) eqn:V; [|subst; discriminate].
      apply visible_iff in V. destruct (_ && _) eqn:E; [subst; discriminate|].
      destruct (is_nil (untilComma (f_tag f))) eqn:EN.
      + subst. apply fj_own; auto. apply tag_name_iff. destruct (untilComma (f_tag f)); [auto|discriminate].
      + subst. apply fj_tag; auto.
        * now apply tag_name_iff.
        * destruct (untilComma (f_tag f)); [discriminate|congruence].
        * intros D. apply dash_iff in D. congruence.
  Qed.

  Lemma field_json_none : forall f, field_json types f None <-> is_nil (getFieldName types f) = true.
  Proof.
    intros f. rewrite getFieldName_eq. cbv zeta. split.
    - intros H. inversion H as [? V|? V T| |]; subst.
      + destruct (visibleb f) eqn:E; auto. apply visible_iff in E. tauto.
      + apply visible_iff in V. rewrite V. apply tag_name_iff in T.
        assert (E : (lenZ (untilComma (f_tag f)) =? 1) && (hd 0 (untilComma (f_tag f)) =? 45) = true) by (apply dash_iff; auto).
        rewrite E. reflexivity.
    - destruct (visibleb f) eqn:V.
      + pose proof V as V'. apply visible_iff in V. destruct (_ && _) eqn:E.
        * intros _. apply fj_dash; auto. apply tag_name_iff. symmetry. now apply dash_iff.
        * destruct (is_nil (untilComma (f_tag f))) eqn:EN.
          -- destruct V as [(c & r & -> & _) _]. discriminate.
          -- congruence.
      + intros _. apply fj_hidden. rewrite visible_iff. congruence.
  Qed.
End Types.

(** * Building encoders *)
Section Build.
  Variable types : nat -> shape.
  Variable typeName : nat -> bytes.
  Local Notation encoderOf := (encoderOf types typeName).
  Local Notation structFields := (structFields types).

  Lemma structFields_mono : forall (r1 r2 : bytes -> nat -> option encoder),
    (forall p t e, r1 p t = Some e -> r2 p t = Some e) ->
    forall fs i first l, structFields r1 i first fs = Some l -> structFields r2 i first fs = Some l.
  Proof.
    intros r1 r2 H. induction fs as [|f fs IH]; intros i first l E; auto. cbn [JsonCompModel.structFields] in *.
    destruct (is_nil (getFieldName types f)); [now apply IH|].
    destruct (r1 _ _) as [e|] eqn:E1; [|discriminate]. rewrite (H _ _ _ E1). cbn [obind] in *.
    destruct (structFields r1 _ _ _) as [l'|] eqn:E2; [|discriminate]. now rewrite (IH _ _ _ E2).
  Qed.

  Lemma encoderOf_mono1 : forall f prefix t e, encoderOf f prefix t = Some e -> encoderOf (S f) prefix t = Some e.
  Proof.
    induction f as [|f IH]; intros prefix t e H; [discriminate|].
    cbn [JsonCompModel.encoderOf] in H. remember (S f) as sf. cbn [JsonCompModel.encoderOf]. subst sf.
    destruct (types t); auto;
    try (destruct (encoderOf f _ _) as [x|] eqn:E; [|discriminate]; rewrite (IH _ _ _ E); exact H).
    - destruct (structFields (encoderOf f) 0 true fs) as [l|] eqn:E; [|discriminate].
      rewrite (structFields_mono _ _ IH _ _ _ _ E). exact H.
    - destruct (encoderOf f _ k) as [x|] eqn:E; [|discriminate]; rewrite (IH _ _ _ E). cbn [obind] in *.
      destruct (encoderOf f _ t0) as [y|] eqn:E2; [|discriminate]; rewrite (IH _ _ _ E2). exact H.
  Qed.

  Lemma encoderOf_mono : forall f f' prefix t e, (f <= f')%nat ->
    encoderOf f prefix t = Some e -> encoderOf f' prefix t = Some e.
  Proof. intros f f' prefix t e H. induction H; auto using encoderOf_mono1. Qed.

  (** Enough fuel for a type, whatever the prefix. *)
  Definition enough (f : nat) (t : nat) : Prop := forall prefix, exists e, encoderOf f prefix t = Some e.

  Lemma enough_le : forall f f' t, (f <= f')%nat -> enough f t -> enough f' t.
  Proof. intros f f' t H E prefix. destruct (E prefix) as (e & Ee). exists e. eapply encoderOf_mono; eauto. Qed.

  Lemma structFields_enough : forall f fs, 
    (forall x name, In x fs -> field_json types x (Some name) -> enough f (f_type x)) ->
    forall i first, exists l, structFields (encoderOf f) i first fs = Some l.
  Proof.
    intros f. induction fs as [|x fs IH]; intros H i first; cbn [JsonCompModel.structFields]; eauto.
    destruct (is_nil (getFieldName types x)) eqn:E; [apply IH; intros; eapply H; cbn; eauto|].
    assert (J : field_json types x (Some (getFieldName types x))) by (apply field_json_some; auto).
    destruct (H x _ (or_introl eq_refl) J (fieldPrefix first (getFieldName types x) ++ bs " ." ++ getFieldName types x)) as (e & ->).
    cbn [obind]. destruct (IH ltac:(intros; eapply H; cbn; eauto) (S i) false) as (l & ->). cbn. eauto.
  Qed.

  Lemma finite_builds : forall t, finite_type types t -> exists f, enough f t.
  Proof.
    induction 1 as [t _ IH]. unfold refers_to in IH.
    destruct (types t) eqn:T;
    try (exists 1%nat; intros prefix; cbn [JsonCompModel.encoderOf]; rewrite T; eauto; fail).
    - destruct (IH t0 eq_refl) as (f & Hf). exists (S f). intros prefix. cbn [JsonCompModel.encoderOf]. rewrite T.
      edestruct Hf as (e & ->). cbn. eauto.
    - destruct (IH t0 eq_refl) as (f & Hf). exists (S f). intros prefix. cbn [JsonCompModel.encoderOf]. rewrite T.
      edestruct Hf as (e & ->). cbn. eauto.
    - destruct (IH t0 eq_refl) as (f & Hf). exists (S f). intros prefix. cbn [JsonCompModel.encoderOf]. rewrite T.
      edestruct Hf as (e & ->). cbn. eauto.
    - assert (A : exists f, forall x name, In x fs -> field_json types x (Some name) -> enough f (f_type x)).
      { assert (IH' : forall x name, In x fs -> field_json types x (Some name) -> exists f, enough f (f_type x)).
        { intros x name Hx Hj. apply IH. exists x, name. auto. }
        clear IH T. induction fs as [|x fs IHl].
        - exists 0%nat. intros x name [].
        - destruct IHl as (f1 & F1); [intros; eapply IH'; cbn; eauto|].
          destruct (is_nil (getFieldName types x)) eqn:E.
          + exists f1. intros y name [<-|Hy] J; [|eauto].
            apply field_json_some in J as [J1 J2]. rewrite J1 in E. congruence.
          + assert (J : field_json types x (Some (getFieldName types x))) by (apply field_json_some; auto).
            destruct (IH' x _ (or_introl eq_refl) J) as (f2 & F2).
            exists (Nat.max f1 f2). intros y name [<-|Hy] J'.
            * eapply enough_le; [|exact F2]; lia.
            * eapply enough_le; [|eapply F1; eauto]; lia. }
      destruct A as (f & A). exists (S f). intros prefix. cbn [JsonCompModel.encoderOf]. rewrite T.
      destruct (structFields_enough f fs A 0 true) as (l & ->). cbn. eauto.
    - destruct (IH k (or_introl eq_refl)) as (f1 & F1). destruct (IH t0 (or_intror eq_refl)) as (f2 & F2).
      exists (S (Nat.max f1 f2)). intros prefix. cbn [JsonCompModel.encoderOf]. rewrite T.
      edestruct (enough_le f1 (Nat.max f1 f2) k ltac:(lia) F1) as (e1 & ->). cbn [obind].
      edestruct (enough_le f2 (Nat.max f1 f2) t0 ltac:(lia) F2) as (e2 & ->). cbn. eauto.
  Qed.

  Lemma structFields_children : forall rec fs i first l, structFields rec i first fs = Some l ->
    forall x name, In x fs -> field_json types x (Some name) -> exists p e, rec p (f_type x) = Some e.
  Proof.
    intros rec. induction fs as [|f fs IH]; intros i first l E x name Hx J; [destruct Hx|].
    cbn [JsonCompModel.structFields] in E. destruct Hx as [->|Hx].
    - apply field_json_some in J as [J1 J]. rewrite J1, J in E.
      destruct (rec _ _) as [e|] eqn:E1; [|discriminate]. eauto.
    - destruct (is_nil _); [eapply IH; eauto|].
      destruct (rec _ (f_type f)) as [e|] eqn:E1; [|discriminate]. cbn [obind] in E.
      destruct (structFields rec (S i) false fs) as [l'|] eqn:E2; [|discriminate]. eapply IH; eauto.
  Qed.

  Lemma builds_finite : forall f prefix t e, encoderOf f prefix t = Some e -> finite_type types t.
  Proof.
    induction f as [|f IH]; intros prefix t e H; [discriminate|].
    constructor. intros t' R. unfold refers_to in R. cbn [JsonCompModel.encoderOf] in H.
    destruct (types t) eqn:T; try tauto.
    - subst. destruct (encoderOf f _ _) eqn:E; [|discriminate]. eauto.
    - subst. destruct (encoderOf f _ _) eqn:E; [|discriminate]. eauto.
    - subst. destruct (encoderOf f _ _) eqn:E; [|discriminate]. eauto.
    - destruct R as (x & name & Hx & J & ->).
      destruct (structFields _ _ _ _) as [l|] eqn:E; [|discriminate].
      destruct (structFields_children _ _ _ _ _ E _ _ Hx J) as (p & e' & E'). eauto.
    - destruct (encoderOf f _ k) eqn:E1; [|discriminate]. cbn [obind] in H.
      destruct (encoderOf f _ t0) eqn:E2; [|discriminate]. destruct R as [->| ->]; eauto.
  Qed.

  (** * Encoding *)
  Variable ff64 : binary64 -> bytes.
  Variable ff32 : binary32 -> bytes.
  Definition enc (F : nat) : val -> writer := encode ff64 ff32 types (EncoderOf types typeName F).

  Definition Pm (t : nat) (v : val) (j : json) : Prop :=
    forall f prefix e, encoderOf f prefix t = Some e ->
    exists F0, forall F, (F0 <= F)%nat -> exists txt n j',
      (forall space, enc F v e space = Some (space ++ txt)) /\ wstarts txt /\ wreads n txt j' /\ means types t v j'.

  Definition Pl (t : nat) (l : list val) (js : list json) : Prop :=
    forall f prefix e, encoderOf f prefix t = Some e ->
    exists F0, forall F, (F0 <= F)%nat -> exists txts n js',
      (forall first space, seqLoop (map (enc F) l) e first space = Some (space ++ sep first txts)) /\
      Forall wstarts txts /\ Forall2 (wreads n) txts js' /\ means_list types t l js'.

  Definition Pf (fs : list field) (l : list val) (ms : list (bytes * json)) : Prop :=
    forall f i first flds, structFields (encoderOf f) i first fs = Some flds ->
    exists F0, forall F, (F0 <= F)%nat -> exists txts n ms',
      (forall pre space, List.length pre = i ->
         structLoop (pre ++ map (enc F) l) flds space = Some (space ++ sep first txts)) /\
      Forall2 (wreads_member n) txts ms' /\ means_fields types fs l ms'.

  Definition mapws (F : nat) (m : list (val * val)) :=
    map (fun p => match p with (k, x) =>
      (enc F k, match k with VIface (Some (t, y)) => Some (t, enc F y) | _ => None end, enc F x) end) m.

  Definition Pmap (k t : nat) (m : list (val * val)) (ms : list (bytes * json)) : Prop :=
    forall fk pk ek f prefix e, encoderOf fk pk k = Some ek -> encoderOf f prefix t = Some e ->
    exists F0, forall F, (F0 <= F)%nat -> exists txts n ms',
      (forall first space, mapLoop types (EncoderOf types typeName F) (mapws F m) (keyEncoderOf types k ek) e first space
         = Some (space ++ sep first txts)) /\
      Forall2 (wreads_member n) txts ms' /\ means_map types k t m ms'.



  Ltac build1 H T := match type of H with encoderOf ?f _ _ = _ =>
    destruct f as [|f]; [discriminate|]; cbn [JsonCompModel.encoderOf] in H; rewrite T in H end.

  Lemma Forall2_reads_le : forall n m txts js, (n <= m)%nat -> Forall2 (reads n) txts js -> Forall2 (reads m) txts js.
  Proof. intros n m txts js H F. induction F; constructor; eauto using reads_le. Qed.

  Lemma reads_member_le : forall n m t x, (n <= m)%nat -> reads_member n t x -> reads_member m t x.
  Proof. intros n m t x H (kt & vt & E & K & V). exists kt, vt. eauto using reads_le. Qed.

  Lemma Forall2_member_le : forall n m txts ms, (n <= m)%nat -> Forall2 (reads_member n) txts ms -> Forall2 (reads_member m) txts ms.
  Proof. intros n m txts js H F. induction F; constructor; eauto using reads_member_le. Qed.

  Lemma Forall2_wreads_le : forall n m txts js, (n <= m)%nat -> Forall2 (wreads n) txts js -> Forall2 (wreads m) txts js.
  Proof. intros n m txts js H F. induction F; constructor; eauto using wreads_le. Qed.

  Lemma wreads_member_le : forall n m t x, (n <= m)%nat -> wreads_member n t x -> wreads_member m t x.
  Proof. intros n m t x H (kt & vt & E & K & V). exists kt, vt. eauto using wreads_le. Qed.

  Lemma Forall2_wmember_le : forall n m txts ms, (n <= m)%nat -> Forall2 (wreads_member n) txts ms -> Forall2 (wreads_member m) txts ms.
  Proof. intros n m txts js H F. induction F; constructor; eauto using wreads_member_le. Qed.

  Lemma num_plain : forall t z, canon_int t z -> Forall (fun b => ~ must_escape b) t.
  Proof.
    assert (D : forall t, forallb is_digit t = true -> Forall (fun b => ~ must_escape b) t).
    { intros t H. apply Forall_forall. intros b Hb. rewrite forallb_forall in H. specialize (H b Hb).
      unfold is_digit, must_escape in *. lia. }
    intros t z [[_ C]|[_ (t' & -> & C)]].
    - apply D, C.
    - constructor; [unfold must_escape; lia|]. apply D, C.
  Qed.

  Lemma key_ok : forall k key name, key_name types k key name -> forall f p ek, encoderOf f p k = Some ek ->
    exists kt, (forall F, (match keyEncoderOf types k ek with
        | KString e => forall space, enc F key e space = Some (space ++ kt)
        | KNumber e => exists t, kt = [34] ++ t ++ [34] /\ forall space, enc F key e space = Some (space ++ t)
        | KInterface | KMethods => False end)) /\
      forall after, json_string (kt ++ after) = Some (name, after).
  Proof.
    intros k key name H f p ek E. destruct H as [k s T G|k ik z txt T R C|k b T]; build1 E T; injection E as <-;
    unfold keyEncoderOf; rewrite T.
    - destruct (good_string_text s G) as (t & W & J). exists t. split; [intros F space; cbn; now rewrite W|exact J].
    - exists ([34] ++ txt ++ [34]). split.
      + intros F. exists txt. split; auto. intros space. cbn. now apply writeInt_ok.
      + apply quoted_plain. eapply num_plain; eauto.
    - exists ([34] ++ (if b then bs "true" else bs "false") ++ [34]). split.
      + intros F. eexists. split; [reflexivity|]. intros space. reflexivity.
      + apply quoted_plain. destruct b; repeat constructor; unfold must_escape; cbn; lia.
  Qed.

  Lemma sep_cons : forall (first : bool) t txts, sep first (t :: txts) = (if first then [] else [44]) ++ t ++ sep false txts.
  Proof. reflexivity. Qed.

  Scheme means_mut := Induction for means Sort Prop
    with means_list_mut := Induction for means_list Sort Prop
    with means_fields_mut := Induction for means_fields Sort Prop
    with means_map_mut := Induction for means_map Sort Prop.

  Ltac starts_tac := unfold wstarts; do 2 eexists; (split; [reflexivity|]); split; discriminate.

  Lemma encode_ok : forall t v j, means types t v j -> Pm t v j.
  Proof.
    apply (means_mut types (fun t v j _ => Pm t v j) (fun t l js _ => Pl t l js)
             (fun fs l ms _ => Pf fs l ms) (fun k t m ms _ => Pmap k t m ms)).
    - (* bool *) intros t b T f prefix e E. build1 E T. injection E as <-. exists 0%nat. intros F _.
      exists (if b then bs "true" else bs "false"), 1%nat, (JBool b).
      split; [reflexivity|]. split; [destruct b; starts_tac|].
      split; [|now constructor]. apply reads_wreads. intros rest _. destruct b; reflexivity.
    - (* int *) intros t k z txt T R C f prefix e E. build1 E T. injection E as <-. exists 0%nat. intros F _.
      destruct (reads_num txt (canon_int_text _ _ C)) as [Rd St]. apply reads_wreads in Rd. apply starts_wstarts in St.
      exists txt, 1%nat, (JNum txt). split; [intros; cbn; now apply writeInt_ok|]. split; auto. split; auto.
      econstructor; eauto.
    - (* float64 *) intros t x txt q T Fi Bd _ _ f prefix e E. build1 E T. injection E as <-. exists 0%nat. intros F _.
      destruct (C06_float64 ff64 x Fi Bd) as (t' & q' & W & S & Err).
      destruct (reads_num t' (short_decimal_text _ _ _ S)) as [Rd St]. apply reads_wreads in Rd. apply starts_wstarts in St.
      exists t', 1%nat, (JNum t'). split; [intros; cbn; now rewrite W|]. split; auto. split; auto.
      econstructor; eauto.
    - (* float32 *) intros t x txt q T Fi Bd _ _ f prefix e E. build1 E T. injection E as <-. exists 0%nat. intros F _.
      destruct (C06_float32 ff32 x Fi Bd) as (t' & q' & W & S & Err).
      destruct (reads_num t' (short_decimal_text _ _ _ S)) as [Rd St]. apply reads_wreads in Rd. apply starts_wstarts in St.
      exists t', 1%nat, (JNum t'). split; [intros; cbn; now rewrite W|]. split; auto. split; auto.
      econstructor; eauto.
    - (* string *) intros t s T G f prefix e E. build1 E T. injection E as <-. exists 0%nat. intros F _.
      destruct (good_string_text s G) as (t' & W & J). destruct (reads_str _ _ J) as [Rd St]. apply reads_wreads in Rd. apply starts_wstarts in St.
      exists t', 1%nat, (JStr s). split; [intros; cbn; now rewrite W|]. split; auto. split; auto. now constructor.
    - (* bytes *) intros t s T G f prefix e E. build1 E T. injection E as <-. exists 0%nat. intros F _.
      destruct (good_bytes_text s G) as (t' & W & J). destruct (reads_str _ _ J) as [Rd St]. apply reads_wreads in Rd. apply starts_wstarts in St.
      exists t', 1%nat, (JStr (display s)). split; [intros; cbn; now rewrite W|]. split; auto. split; auto. now constructor.
    - (* error *) intros t s T G f prefix e E. build1 E T. injection E as <-. exists 0%nat. intros F _.
      pose proof (quoted_plain s G) as J. destruct (reads_str _ _ J) as [Rd St]. apply reads_wreads in Rd. apply starts_wstarts in St.
      exists ([34] ++ s ++ [34]), 1%nat, (JStr s). split; [reflexivity|]. split; auto. split; auto. now constructor.
    - (* marshaler *) intros t text j T P f prefix e E. build1 E T. injection E as <-. exists 0%nat. intros F _.
      destruct (parses_wreads _ _ P) as (St & n & Rd).
      exists text, n, j. split; [reflexivity|]. split; auto. split; auto. now constructor.
    - (* failing marshaler *) intros t s T G f prefix e E. build1 E T. injection E as <-. exists 0%nat. intros F _.
      pose proof (quoted_plain s G) as J. destruct (reads_str _ _ J) as [Rd St]. apply reads_wreads in Rd. apply starts_wstarts in St.
      exists ([34] ++ s ++ [34]), 1%nat, (JStr s). split; [reflexivity|]. split; auto. split; auto. now constructor.
    - (* nil pointer *) intros t t' T f prefix e E. build1 E T. destruct (encoderOf _ _ _); [|discriminate]. injection E as <-.
      exists 0%nat. intros F _. exists (bs "null"), 1%nat, JNull. split; [reflexivity|].
      split; [starts_tac|]. split; [|econstructor; eauto].
      apply reads_wreads. intros rest _. reflexivity.
    - (* pointer *) intros t t' x j T _ IH f prefix e E. build1 E T.
      destruct (encoderOf _ _ _) as [e'|] eqn:E'; [|discriminate]. injection E as <-.
      destruct (IH _ _ _ E') as (F0 & H). exists F0. intros F HF. destruct (H F HF) as (txt & n & j' & W & S & R & M).
      exists txt, n, j'. split; [exact W|]. split; auto. split; auto. econstructor; eauto.
    - (* slice *) intros t t' l js T _ IH f prefix e E. build1 E T.
      destruct (encoderOf _ _ _) as [e'|] eqn:E'; [|discriminate]. injection E as <-.
      destruct (IH _ _ _ E') as (F0 & H). exists F0. intros F HF. destruct (H F HF) as (txts & n & js' & W & S & R & M).
      destruct (wreads_array txts js' n S R) as (m & Rd). apply reads_wreads in Rd.
      exists ([91] ++ sep true txts ++ [93]), m, (JArr js'). split.
      + intros space. unfold enc. cbn [encode]. fold (enc F). rewrite W. cbn [obind]. now rewrite <- !app_assoc.
      + split; [starts_tac|]. split; auto. econstructor; eauto.
    - (* array *) intros t n0 t' l js T Len _ IH f prefix e E. build1 E T.
      destruct (encoderOf _ _ _) as [e'|] eqn:E'; [|discriminate]. injection E as <-.
      destruct (IH _ _ _ E') as (F0 & H). exists F0. intros F HF. destruct (H F HF) as (txts & n & js' & W & S & R & M).
      destruct (wreads_array txts js' n S R) as (m & Rd). apply reads_wreads in Rd.
      exists ([91] ++ sep true txts ++ [93]), m, (JArr js'). split.
      + intros space. unfold enc. cbn [encode]. fold (enc F).
        rewrite firstn_all2 by (rewrite map_length; lia). rewrite W. cbn [obind]. now rewrite <- !app_assoc.
      + split; [starts_tac|]. split; auto. eapply m_array; eauto.
    - (* struct *) intros t fs l ms T _ IH f prefix e E. build1 E T.
      destruct (structFields _ _ _ _) as [flds|] eqn:E'; [|discriminate]. injection E as <-.
      destruct (IH _ _ _ _ E') as (F0 & H). exists F0. intros F HF. destruct (H F HF) as (txts & n & ms' & W & R & M).
      destruct (wreads_object txts ms' n R) as (m & Rd). apply reads_wreads in Rd.
      exists ([123] ++ sep true txts ++ [125]), m, (JObj ms'). split.
      + intros space. unfold enc. cbn [encode]. fold (enc F). specialize (W [] (space ++ [123]) eq_refl). cbn [app] in W.
        rewrite W. cbn [obind]. now rewrite <- !app_assoc.
      + split; [starts_tac|]. split; auto. econstructor; eauto.
    - (* nil map *) intros t k t' T f prefix e E. build1 E T.
      destruct (encoderOf _ _ k); [|discriminate]. cbn [obind] in E.
      destruct (encoderOf _ _ t'); [|discriminate]. injection E as <-.
      exists 0%nat. intros F _. exists (bs "null"), 1%nat, JNull. split; [reflexivity|].
      split; [starts_tac|]. split; [|econstructor; eauto].
      apply reads_wreads. intros rest _. reflexivity.
    - (* map *) intros t k t' m ms T _ IH f prefix e E. build1 E T.
      destruct (encoderOf _ _ k) as [ek|] eqn:Ek; [|discriminate]. cbn [obind] in E.
      destruct (encoderOf _ _ t') as [e'|] eqn:E'; [|discriminate]. injection E as <-.
      destruct (IH _ _ _ _ _ _ Ek E') as (F0 & H). exists F0. intros F HF. destruct (H F HF) as (txts & n & ms' & W & R & M).
      destruct (wreads_object txts ms' n R) as (q & Rd). apply reads_wreads in Rd.
      exists ([123] ++ sep true txts ++ [125]), q, (JObj ms'). split.
      + intros space. unfold enc. cbn [encode]. fold (enc F). fold (mapws F m).
        rewrite W. cbn [obind]. now rewrite <- !app_assoc.
      + split; [starts_tac|]. split; auto. econstructor; eauto.
    - (* nil interface *) intros t T f prefix e E. assert (e = EDynamic) as -> by (destruct T as [T|T]; build1 E T; now injection E as <-).
      exists 0%nat. intros F _. exists (bs "null"), 1%nat, JNull. split; [reflexivity|].
      split; [starts_tac|]. split; [|econstructor; eauto].
      apply reads_wreads. intros rest _. reflexivity.
    - (* interface *) intros t t' x j T Fin _ IH f prefix e E. assert (e = EDynamic) as -> by (destruct T as [T|T]; build1 E T; now injection E as <-).
      destruct (finite_builds t' Fin) as (f' & En). destruct (En []) as (e' & E').
      destruct (IH _ _ _ E') as (F0 & H). exists (Nat.max F0 f'). intros F HF.
      destruct (H F ltac:(lia)) as (txt & n & j' & W & S & R & M).
      exists txt, n, j'. split.
      + intros space. unfold enc. cbn [encode]. fold (enc F). unfold EncoderOf.
        rewrite (encoderOf_mono f' F [] t' e' ltac:(lia) E'). cbn [obind]. apply W.
      + split; auto. split; auto. econstructor; eauto.
    - (* list nil *) intros t f prefix e E. exists 0%nat. intros F _. exists [], 0%nat, [].
      split; [intros; cbn; now rewrite app_nil_r|]. repeat split; constructor.
    - (* list cons *) intros t x j l js _ IHx _ IHl f prefix e E.
      destruct (IHx _ _ _ E) as (F1 & H1). destruct (IHl _ _ _ E) as (F2 & H2).
      exists (Nat.max F1 F2). intros F HF.
      destruct (H1 F ltac:(lia)) as (txt & n & j' & W & S & R & M).
      destruct (H2 F ltac:(lia)) as (txts & ns & js' & Ws & Ss & Rs & Ms).
      exists (txt :: txts), (Nat.max n ns), (j' :: js'). split.
      + intros first space. cbn [map seqLoop]. rewrite W. cbn [obind]. rewrite Ws, sep_cons.
        destruct first; cbn [app]; rewrite <- ?app_assoc; reflexivity.
      + split; [now constructor|]. split; [|now constructor].
        constructor; [eapply wreads_le; [|exact R]; lia|eapply Forall2_wreads_le; [|exact Rs]; lia].
    - (* fields nil *) intros f i first flds E. cbn in E. injection E as <-. exists 0%nat. intros F _. exists [], 0%nat, [].
      split; [intros; cbn; now rewrite app_nil_r|]. repeat split; constructor.
    - (* fields skip *) intros fd x fs l ms J _ IH f i first flds E. cbn [JsonCompModel.structFields] in E.
      pose proof J as J'. apply field_json_none in J. rewrite J in E. destruct (IH _ _ _ _ E) as (F0 & H). exists F0. intros F HF.
      destruct (H F HF) as (txts & n & ms' & W & R & M). exists txts, n, ms'. split.
      + intros pre space Lp. cbn [map]. change (enc F x :: map (enc F) l) with ([enc F x] ++ map (enc F) l).
        rewrite app_assoc. apply W. rewrite app_length. cbn. lia.
      + split; auto. now apply mf_skip.
    - (* fields keep *) intros fd name x j fs l ms J Pl' _ IHx _ IHl f i first flds E. cbn [JsonCompModel.structFields] in E.
      pose proof J as J'. apply field_json_some in J as [Hn Hnil]. rewrite Hn, Hnil in E.
      destruct (encoderOf f _ _) as [e|] eqn:Ee; [|discriminate]. cbn [obind] in E.
      destruct (structFields _ _ _ _) as [flds'|] eqn:El; [|discriminate]. injection E as <-.
      destruct (IHx _ _ _ Ee) as (F1 & H1). destruct (IHl _ _ _ _ El) as (F2 & H2).
      exists (Nat.max F1 F2). intros F HF.
      destruct (H1 F ltac:(lia)) as (txt & n & j' & W & S & R & M).
      destruct (H2 F ltac:(lia)) as (txts & ns & ms' & Ws & Rs & Ms).
      exists ((([34] ++ name ++ [34]) ++ 58 :: txt) :: txts), (Nat.max n ns), ((name, j') :: ms'). split.
      + intros pre space Lp. cbn [structLoop map].
        rewrite nth_error_app2 by lia. replace (i - List.length pre)%nat with 0%nat by lia. cbn [nth_error obind].
        rewrite W. cbn [obind]. change (enc F x :: map (enc F) l) with ([enc F x] ++ map (enc F) l).
        rewrite app_assoc, Ws by (rewrite app_length; cbn; lia).
        rewrite sep_cons. unfold fieldPrefix. f_equal. rewrite <- !app_assoc. destruct first; reflexivity.
      + split; [|now apply mf_keep].
        constructor; [|eapply Forall2_wmember_le; [|exact Rs]; lia].
        exists ([34] ++ name ++ [34]), txt. split; auto. split; [now apply quoted_plain|].
        eapply wreads_le; [|exact R]; lia.
    - (* map nil *) intros k t fk pk ek f prefix e Ek E. exists 0%nat. intros F _. exists [], 0%nat, [].
      split; [intros; cbn; now rewrite app_nil_r|]. repeat split; constructor.
    - (* map cons *) intros k t key name x j m ms K _ IHx _ IHm fk pk ek f prefix e Ek E.
      destruct (IHx _ _ _ E) as (F1 & H1). destruct (IHm _ _ _ _ _ _ Ek E) as (F2 & H2).
      exists (Nat.max F1 F2). intros F HF.
      destruct (H1 F ltac:(lia)) as (txt & n & j' & W & S & R & M).
      destruct (H2 F ltac:(lia)) as (txts & ns & ms' & Ws & Rs & Ms).
      destruct (key_ok _ _ _ K _ _ _ Ek) as (kt & Wk & Jk). specialize (Wk F).
      exists ((kt ++ 58 :: txt) :: txts), (Nat.max n ns), ((name, j') :: ms'). split.
      + intros first space. cbn [mapws map mapLoop]. fold (mapws F m).
        assert (WK : forall kd sp, writeKey types (EncoderOf types typeName F) (keyEncoderOf types k ek) (enc F key) kd sp = Some (sp ++ kt ++ [58])).
        { intros kd sp. unfold writeKey. destruct (keyEncoderOf types k ek) as [e0|e0| |]; [| |tauto|tauto].
          - rewrite Wk. cbn [obind]. now rewrite <- app_assoc.
          - destruct Wk as (tt & -> & Wk). rewrite Wk. cbn [obind]. rewrite <- !app_assoc. reflexivity. }
        rewrite WK. cbn [obind]. rewrite W. cbn [obind]. rewrite Ws, sep_cons.
        destruct first; cbn [app]; rewrite <- ?app_assoc; reflexivity.
      + split; [|now constructor].
        constructor; [|eapply Forall2_wmember_le; [|exact Rs]; lia].
        exists kt, txt. split; auto. split; auto. eapply wreads_le; [|exact R]; lia.
    - (* map interface key *) intros k t k' key name x j m ms Tk Fin K _ IHx _ IHm fk pk ek f prefix e Ek E.
      destruct (finite_builds k' Fin) as (f' & En). destruct (En []) as (e' & E').
      destruct (IHx _ _ _ E) as (F1 & H1). destruct (IHm _ _ _ _ _ _ Ek E) as (F2 & H2).
      exists (Nat.max (Nat.max F1 F2) f'). intros F HF.
      destruct (H1 F ltac:(lia)) as (txt & n & j' & W & S & R & M).
      destruct (H2 F ltac:(lia)) as (txts & ns & ms' & Ws & Rs & Ms).
      destruct (key_ok _ _ _ K _ _ _ E') as (kt & Wk & Jk). specialize (Wk F).
      exists ((kt ++ 58 :: txt) :: txts), (Nat.max n ns), ((name, j') :: ms'). split.
      + intros first space. cbn [mapws map mapLoop]. fold (mapws F m).
        assert (WK : forall w sp, writeKey types (EncoderOf types typeName F) (keyEncoderOf types k ek) w (Some (k', enc F key)) sp = Some (sp ++ kt ++ [58])).
        { intros w sp. unfold writeKey. unfold keyEncoderOf at 1. rewrite Tk.
          assert (TK : match types k' with SPtr _ | SMap _ _ | SFunc | SChan => False | _ => True end)
            by (destruct K as [? ? T ?|? ? ? ? T|? ? T]; rewrite T; auto).
          assert (EE : EncoderOf types typeName F k' = Some e') by (apply (encoderOf_mono f' F [] k' e' ltac:(lia) E')).
          assert (G : (let? e0 := EncoderOf types typeName F k' in
             match keyEncoderOf types k' e0 with
             | KString e1 => let? space0 := enc F key e1 sp in Some (space0 ++ [58])
             | KNumber e1 => let? space0 := enc F key e1 (sp ++ [34]) in Some (space0 ++ [34; 58])
             | KInterface | KMethods => None end) = Some (sp ++ kt ++ [58])).
          { rewrite EE. cbn [obind]. destruct (keyEncoderOf types k' e') as [e0|e0| |]; [| |tauto|tauto].
            - rewrite Wk. cbn [obind]. now rewrite <- app_assoc.
            - destruct Wk as (tt & -> & Wk). rewrite Wk. cbn [obind]. rewrite <- !app_assoc. reflexivity. }
          destruct (types k'); try tauto; exact G. }
        rewrite WK. cbn [obind]. rewrite W. cbn [obind]. rewrite Ws, sep_cons.
        destruct first; cbn [app]; rewrite <- ?app_assoc; reflexivity.
      + split; [|now apply mm_iface].
        constructor; [|eapply Forall2_wmember_le; [|exact Rs]; lia].
        exists kt, txt. split; auto. split; auto. eapply wreads_le; [|exact R]; lia.
  Qed.

  Lemma marshal_ok : forall t v j, finite_type types t -> means types t v j ->
    exists F0, forall F, (F0 <= F)%nat -> exists text j',
      MarshalToString ff64 ff32 types typeName F t v = Some text /\ parses text j' /\ means types t v j'.
  Proof.
    intros t v j Fin M. destruct (finite_builds t Fin) as (f & En). destruct (En []) as (e & E).
    destruct (encode_ok t v j M _ _ _ E) as (F0 & H). exists (Nat.max F0 f). intros F HF.
    destruct (H F ltac:(lia)) as (txt & n & j' & W & _ & R & M'). exists txt, j'. split; [|split; auto].
    - unfold MarshalToString, EncoderOf. rewrite (encoderOf_mono f F [] t e ltac:(lia) E). cbn [obind].
      apply (W []).
    - destruct (R [] I) as (ws & V & Wh). rewrite !app_nil_r in V. exists n, ws. split; auto.
      rewrite <- (app_nil_r ws). now apply skip_ws_blank.
  Qed.

  Definition wle (w1 w2 : writer) : Prop := forall e sp x, w1 e sp = Some x -> w2 e sp = Some x.

  Lemma seqLoop_wle : forall ws1 ws2, Forall2 wle ws1 ws2 -> forall e first sp x,
    seqLoop ws1 e first sp = Some x -> seqLoop ws2 e first sp = Some x.
  Proof.
    induction 1 as [|w1 w2 r1 r2 H _ IH]; intros e first sp x E; auto. cbn [seqLoop] in *.
    destruct (w1 e _) as [y|] eqn:E1; [|discriminate]. rewrite (H _ _ _ E1). now apply IH.
  Qed.

  Lemma structLoop_wle : forall ws1 ws2, Forall2 wle ws1 ws2 -> forall fs sp x,
    structLoop ws1 fs sp = Some x -> structLoop ws2 fs sp = Some x.
  Proof.
    intros ws1 ws2 F. induction fs as [|[[i p] e] fs IH]; intros sp x E; auto. cbn [structLoop] in *.
    assert (N : forall w1, nth_error ws1 i = Some w1 -> exists w2, nth_error ws2 i = Some w2 /\ wle w1 w2).
    { clear -F. revert i. induction F as [|w1 w2 r1 r2 H _ IH]; intros [|i] w; cbn; try discriminate.
      - intros [= <-]. eauto.
      - apply IH. }
    destruct (nth_error ws1 i) as [w1|]; [|discriminate]. destruct (N _ eq_refl) as (w2 & -> & H). cbn [obind] in *.
    destruct (w1 e _) as [y|] eqn:E1; [|discriminate]. rewrite (H _ _ _ E1). now apply IH.
  Qed.

  Definition dle (a b : option (nat * writer)) : Prop :=
    match a, b with
    | None, None => True
    | Some (t1, w1), Some (t2, w2) => t1 = t2 /\ wle w1 w2
    | _, _ => False
    end.

  Lemma mapLoop_wle : forall (o1 o2 : nat -> option encoder) ws1 ws2, (forall t e, o1 t = Some e -> o2 t = Some e) ->
    Forall2 (fun a b => wle (fst (fst a)) (fst (fst b)) /\ dle (snd (fst a)) (snd (fst b)) /\ wle (snd a) (snd b)) ws1 ws2 ->
    forall ke e first sp x, mapLoop types o1 ws1 ke e first sp = Some x -> mapLoop types o2 ws2 ke e first sp = Some x.
  Proof.
    intros o1 o2 ws1 ws2 O F. induction F as [|[[k1 d1] v1] [[k2 d2] v2] r1 r2 (Hk & Hd & Hv) _ IH]; intros ke e first sp x E; auto.
    cbn [mapLoop fst snd] in *.
    assert (K : forall sp y, writeKey types o1 ke k1 d1 sp = Some y -> writeKey types o2 ke k2 d2 sp = Some y).
    { clear -O Hk Hd. intros sp y. unfold writeKey. destruct ke as [e|e| |]; [| | |discriminate].
      - destruct (k1 e sp) as [z|] eqn:E1; [|discriminate]. now rewrite (Hk _ _ _ E1).
      - destruct (k1 e _) as [z|] eqn:E1; [|discriminate]. now rewrite (Hk _ _ _ E1).
      - destruct d1 as [[t1 w1]|]; [|discriminate]. destruct d2 as [[t2 w2]|]; [|destruct Hd]. destruct Hd as [<- Hw].
        assert (G : (let? e0 := o1 t1 in
             match keyEncoderOf types t1 e0 with
             | KString e1 => let? space0 := w1 e1 sp in Some (space0 ++ [58])
             | KNumber e1 => let? space0 := w1 e1 (sp ++ [34]) in Some (space0 ++ [34; 58])
             | KInterface | KMethods => None end) = Some y -> 
            (let? e0 := o2 t1 in
             match keyEncoderOf types t1 e0 with
             | KString e1 => let? space0 := w2 e1 sp in Some (space0 ++ [58])
             | KNumber e1 => let? space0 := w2 e1 (sp ++ [34]) in Some (space0 ++ [34; 58])
             | KInterface | KMethods => None end) = Some y).
        { destruct (o1 t1) as [e|] eqn:E; [|discriminate]. rewrite (O _ _ E). cbn [obind].
          destruct (keyEncoderOf types t1 e) as [e1|e1| |]; [| |discriminate|discriminate];
          (destruct (w1 e1 _) as [z|] eqn:E1; [|discriminate]); now rewrite (Hw _ _ _ E1). }
        destruct (types t1); try discriminate; exact G. }
    destruct (writeKey types o1 ke k1 d1 _) as [y|] eqn:E1; [|discriminate]. rewrite (K _ _ E1). cbn [obind] in *.
    destruct (v1 e y) as [z|] eqn:E2; [|discriminate]. rewrite (Hv _ _ _ E2). now apply IH.
  Qed.

  Lemma encode_mono : forall (o1 o2 : nat -> option encoder), (forall t e, o1 t = Some e -> o2 t = Some e) ->
    forall v, wle (encode ff64 ff32 types o1 v) (encode ff64 ff32 types o2 v).
  Proof.
    intros o1 o2 O. fix IH 1. intros v e sp x.
    destruct v as [s|m|r|b|z|f|f|s|[v|]|l|l|[m|]|[[t v]|]|]; cbn [encode]; try exact (fun H => H).
    - destruct e; try exact (fun H => H). apply IH.
    - assert (IHl : Forall2 wle (map (encode ff64 ff32 types o1) l) (map (encode ff64 ff32 types o2) l)).
      { induction l as [|a l IHl]; cbn [map]; constructor; [apply IH|apply IHl]. }
      clear IH. destruct e as [| | | | | | | | |e|n e| | | |]; auto.
      + destruct (seqLoop (map _ l) e true _) as [y|] eqn:E; [|discriminate]. now rewrite (seqLoop_wle _ _ IHl _ _ _ _ E).
      + assert (FF : Forall2 wle (firstn n (map (encode ff64 ff32 types o1) l)) (firstn n (map (encode ff64 ff32 types o2) l))).
        { clear -IHl. revert n. induction IHl; intros [|n]; cbn; constructor; auto. }
        destruct (seqLoop _ e true _) as [y|] eqn:E; [|discriminate]. now rewrite (seqLoop_wle _ _ FF _ _ _ _ E).
    - assert (IHl : Forall2 wle (map (encode ff64 ff32 types o1) l) (map (encode ff64 ff32 types o2) l)).
      { induction l as [|a l IHl]; cbn [map]; constructor; [apply IH|apply IHl]. }
      clear IH. destruct e; auto. destruct (structLoop _ _ _) as [y|] eqn:E; [|discriminate].
      now rewrite (structLoop_wle _ _ IHl _ _ _ E).
    - destruct e; try exact (fun H => H).
      destruct (mapLoop types o1 _ _ _ _ _) as [y|] eqn:E; [|discriminate].
      erewrite (mapLoop_wle o1 o2 _ _ O); [| |exact E]; [exact (fun H => H)|].
      clear -IH. induction m as [|[k y] m IHm]; cbn [map]; constructor; [|exact IHm]. cbn [fst snd].
      split; [apply IH|]. split; [|apply IH].
      destruct k as [s|s|r|b|z|f|f|s|p|l|l|q|[[t w]|]|]; cbn; try exact I. split; [reflexivity|apply IH].
    - destruct e; try exact (fun H => H). destruct (o1 t) as [e'|] eqn:E; [|discriminate]. rewrite (O _ _ E). apply IH.
  Qed.

  Lemma marshal_mono : forall F F' t v text, (F <= F')%nat ->
    MarshalToString ff64 ff32 types typeName F t v = Some text ->
    MarshalToString ff64 ff32 types typeName F' t v = Some text.
  Proof.
    intros F F' t v text H. unfold MarshalToString.
    destruct (EncoderOf types typeName F t) as [e|] eqn:E; [|discriminate].
    unfold EncoderOf in E. unfold EncoderOf at 2. rewrite (encoderOf_mono F F' [] t e H E). cbn [obind].
    apply encode_mono. intros t' e'. unfold EncoderOf. now apply encoderOf_mono.
  Qed.
End Build.
