From Verif Require Import Base DecimalSpec JsonStrSpec JsonSpec JsonLexProofs JsonCompProofs WitchModel WitchSpec.

(** * Reading JSON: a value may be followed by more *)
Lemma prepend_more : forall x o y r t o', prepend x o = Some (y, r) -> (forall y', o = Some (y', r) -> o' = Some (y', r ++ t)) ->
  prepend x o' = Some (y, r ++ t).
Proof. intros x [[y' r']|] y r t o' H K; [|discriminate H]. injection H as <- <-. rewrite (K y' eq_refl). reflexivity. Qed.

Lemma string_body_more : forall n s x r t, (List.length s <= n)%nat -> string_body s = Some (x, r) -> string_body (s ++ t) = Some (x, r ++ t).
Proof.
  induction n as [|n IH]; intros s x r t L H; (destruct s as [|c s]; [discriminate H|]); [cbn in L; lia|]. cbn [List.length] in L. cbn [app string_body] in *.
  destruct (c =? 34); [injection H as <- <-; reflexivity|]. destruct (c =? 92).
  - destruct s as [|e s]; [discriminate H|]. cbn [List.length] in L. cbn [app]. destruct (e =? 117).
    + destruct s as [|h1 [|h2 [|h3 [|h4 s]]]]; try discriminate H. cbn [app List.length] in *. destruct (hex4 h1 h2 h3 h4) as [u|]; [|discriminate H].
      destruct ((55296 <=? u) && (u <? 56320)).
      * destruct s as [|b [|u' [|l1 [|l2 [|l3 [|l4 s]]]]]]; try discriminate H. cbn [app List.length] in *. destruct ((b =? 92) && (u' =? 117)); [|discriminate H].
        destruct (hex4 l1 l2 l3 l4) as [v|]; [|discriminate H]. destruct ((56320 <=? v) && (v <? 57344)); [|discriminate H].
        eapply prepend_more; [exact H|]. intros y' E. eapply IH; [|exact E]. lia.
      * destruct ((56320 <=? u) && (u <? 57344)); [discriminate H|]. eapply prepend_more; [exact H|]. intros y' E. eapply IH; [|exact E]. lia.
    + destruct (short_escape e); [|discriminate H]. eapply prepend_more; [exact H|]. intros y' E. eapply IH; [|exact E]. lia.
  - destruct (c <? 32); [discriminate H|]. eapply prepend_more; [exact H|]. intros y' E. eapply IH; [|exact E]. lia.
Qed.
Lemma json_string_more : forall s x r t, json_string s = Some (x, r) -> json_string (s ++ t) = Some (x, r ++ t).
Proof.
  intros [|c s] x r t H; [discriminate H|]. cbn [app json_string] in *. destruct (c =? 34); [|discriminate H]. eapply string_body_more; [apply le_n|exact H].
Qed.
Lemma strip_more : forall p s r t, strip_prefix p s = Some r -> strip_prefix p (s ++ t) = Some (r ++ t).
Proof.
  induction p as [|a p IH]; intros s r t H; [injection H as ->; reflexivity|]. destruct s as [|b s]; [discriminate H|]. cbn [app strip_prefix] in *.
  destruct (a =? b); [apply IH; exact H|discriminate H].
Qed.
Lemma digits_more : forall s d r t, stops t -> span_digits s = (d, r) -> span_digits (s ++ t) = (d, r ++ t).
Proof.
  induction s as [|c s IH]; intros d r t S H; cbn [app span_digits] in *.
  - injection H as <- <-. destruct t as [|c t]; [reflexivity|]. cbn [span_digits app]. destruct S as [-> _]. reflexivity.
  - destruct (is_digit c); [|injection H as <- <-; reflexivity]. destruct (span_digits s) as [d' r'] eqn:E. rewrite (IH _ _ _ S eq_refl). injection H as <- <-. reflexivity.
Qed.
Lemma int_more : forall s d r t, stops t -> lex_int s = Some (d, r) -> lex_int (s ++ t) = Some (d, r ++ t).
Proof.
  intros [|c s] d r t S H; [discriminate H|]. change ((c :: s) ++ t) with (c :: s ++ t). cbn [lex_int] in *.
  destruct (c =? 48); [injection H as <- <-; reflexivity|]. destruct (is_digit c); [|discriminate H].
  change (c :: s ++ t) with ((c :: s) ++ t). f_equal. apply digits_more; [exact S|]. congruence.
Qed.
Lemma frac_more : forall s d r t, stops t -> lex_frac s = Some (d, r) -> lex_frac (s ++ t) = Some (d, r ++ t).
Proof.
  intros [|c s] d r t S H; [injection H as <- <-; apply lex_frac_stops; exact S|]. change ((c :: s) ++ t) with (c :: s ++ t). cbn [lex_frac] in *.
  destruct (c =? 46); [|injection H as <- <-; reflexivity]. destruct (span_digits s) as [d' r'] eqn:E. rewrite (digits_more _ _ _ _ S E).
  destruct d'; [discriminate H|]. injection H as <- <-. reflexivity.
Qed.
Lemma exp_more : forall s d r t, stops t -> lex_exp s = Some (d, r) -> lex_exp (s ++ t) = Some (d, r ++ t).
Proof.
  intros [|c s] d r t S H; [injection H as <- <-; apply lex_exp_stops; exact S|]. change ((c :: s) ++ t) with (c :: s ++ t). cbn [lex_exp] in *.
  destruct ((c =? 101) || (c =? 69)); [|injection H as <- <-; reflexivity].
  destruct s as [|e s]; [discriminate H|]. cbn [app].
  destruct ((e =? 43) || (e =? 45)).
  - destruct (span_digits s) as [d' r'] eqn:E. rewrite (digits_more _ _ _ _ S E). destruct d'; [discriminate H|]. injection H as <- <-. reflexivity.
  - destruct (span_digits (e :: s)) as [d' r'] eqn:E. change (e :: s ++ t) with ((e :: s) ++ t). rewrite (digits_more _ _ _ _ S E).
    destruct d'; [discriminate H|]. injection H as <- <-. reflexivity.
Qed.
Lemma minus_more : forall s d r t i x, lex_minus s = (d, r) -> lex_int r = Some (i, x) -> lex_minus (s ++ t) = (d, r ++ t).
Proof.
  intros [|c s] d r t i x H I; [injection H as <- <-; discriminate I|]. cbn [app lex_minus] in *. destruct (c =? 45); injection H as <- <-; reflexivity.
Qed.
Lemma number_more : forall s x r t, stops t -> lex_number s = Some (x, r) -> lex_number (s ++ t) = Some (x, r ++ t).
Proof.
  intros s x r t S H. unfold lex_number in *. destruct (lex_minus s) as [m r1] eqn:M.
  destruct (lex_int r1) as [[i r2]|] eqn:I; [|discriminate H]. rewrite (minus_more _ _ _ t _ _ M I). rewrite (int_more _ _ _ _ S I). cbn [obind] in *.
  destruct (lex_frac r2) as [[f r3]|] eqn:F; [|discriminate H]. rewrite (frac_more _ _ _ _ S F). cbn [obind] in *.
  destruct (lex_exp r3) as [[e r4]|] eqn:E; [|discriminate H]. rewrite (exp_more _ _ _ _ S E). cbn [obind] in *. injection H as <- <-. reflexivity.
Qed.
Lemma ws_more : forall s c r t, skip_ws s = c :: r -> skip_ws (s ++ t) = c :: r ++ t.
Proof. induction s as [|a s IH]; intros c r t H; [discriminate H|]. cbn [app skip_ws] in *. destruct (is_ws a); [auto|]. injection H as -> ->. reflexivity. Qed.
Lemma ws_all : forall s t, skip_ws s = [] -> skip_ws (s ++ t) = skip_ws t.
Proof. induction s as [|a s IH]; intros t H; [reflexivity|]. cbn [app skip_ws] in *. destruct (is_ws a); [auto|discriminate H]. Qed.

Lemma value_more : forall t, stops t -> forall n,
  (forall s x r, value n s = Some (x, r) -> value n (s ++ t) = Some (x, r ++ t)) /\
  (forall s x r, elements n s = Some (x, r) -> elements n (s ++ t) = Some (x, r ++ t)) /\
  (forall s x r, members n s = Some (x, r) -> members n (s ++ t) = Some (x, r ++ t)).
Proof.
  intros t S. induction n as [|n (IHv & IHe & IHm)]; [repeat split; intros; discriminate|]. repeat split; intros s x r H.
  - cbn [value] in *. destruct (skip_ws s) as [|c q] eqn:W; [discriminate H|]. rewrite (ws_more _ _ _ t W).
    destruct (c =? 110); [destruct (strip_prefix _ q) as [r'|] eqn:E; [|discriminate H]; rewrite (strip_more _ _ _ t E); cbn [obind] in *; (injection H as <- <-; reflexivity)|].
    destruct (c =? 116); [destruct (strip_prefix _ q) as [r'|] eqn:E; [|discriminate H]; rewrite (strip_more _ _ _ t E); cbn [obind] in *; (injection H as <- <-; reflexivity)|].
    destruct (c =? 102); [destruct (strip_prefix _ q) as [r'|] eqn:E; [|discriminate H]; rewrite (strip_more _ _ _ t E); cbn [obind] in *; (injection H as <- <-; reflexivity)|].
    destruct (c =? 34).
    { destruct (json_string (c :: q)) as [[y r']|] eqn:E; [|discriminate H]. apply (json_string_more _ _ _ t) in E. cbn [app] in E. rewrite E. cbn [obind] in *. (injection H as <- <-; reflexivity). }
    destruct (c =? 91).
    { destruct (skip_ws q) as [|d r'] eqn:W2; [discriminate H|]. rewrite (ws_more _ _ _ t W2). destruct (d =? 93); [(injection H as <- <-; reflexivity)|].
      destruct (elements n q) as [[l r'']|] eqn:E; [|discriminate H]. rewrite (IHe _ _ _ E). cbn [obind] in *. (injection H as <- <-; reflexivity). }
    destruct (c =? 123).
    { destruct (skip_ws q) as [|d r'] eqn:W2; [discriminate H|]. rewrite (ws_more _ _ _ t W2). destruct (d =? 125); [(injection H as <- <-; reflexivity)|].
      destruct (members n q) as [[l r'']|] eqn:E; [|discriminate H]. rewrite (IHm _ _ _ E). cbn [obind] in *. (injection H as <- <-; reflexivity). }
    destruct (lex_number (c :: q)) as [[y r']|] eqn:E; [|discriminate H]. apply (number_more _ _ _ t S) in E. cbn [app] in E. rewrite E. cbn [obind] in *. (injection H as <- <-; reflexivity).
  - cbn [elements] in *. destruct (value n s) as [[v q]|] eqn:E; [|discriminate H]. rewrite (IHv _ _ _ E). cbn [obind] in *.
    destruct (skip_ws q) as [|c q'] eqn:W; [discriminate H|]. rewrite (ws_more _ _ _ t W). destruct (c =? 93); [(injection H as <- <-; reflexivity)|]. destruct (c =? 44); [|discriminate H].
    destruct (elements n q') as [[l r'']|] eqn:E2; [|discriminate H]. rewrite (IHe _ _ _ E2). cbn [obind] in *. (injection H as <- <-; reflexivity).
  - cbn [members] in *. destruct (json_string (skip_ws s)) as [[k q]|] eqn:E; [|discriminate H].
    destruct (skip_ws s) as [|c0 s0] eqn:W0; [discriminate E|]. rewrite (ws_more _ _ _ t W0). apply (json_string_more _ _ _ t) in E. cbn [app] in E. rewrite E. cbn [obind] in *.
    destruct (skip_ws q) as [|c q'] eqn:W; [discriminate H|]. rewrite (ws_more _ _ _ t W). destruct (c =? 58); [|discriminate H].
    destruct (value n q') as [[v q2]|] eqn:E1; [|discriminate H]. rewrite (IHv _ _ _ E1). cbn [obind] in *.
    destruct (skip_ws q2) as [|c2 q3] eqn:W2; [discriminate H|]. rewrite (ws_more _ _ _ t W2). destruct (c2 =? 125); [(injection H as <- <-; reflexivity)|]. destruct (c2 =? 44); [|discriminate H].
    destruct (members n q3) as [[l r'']|] eqn:E2; [|discriminate H]. rewrite (IHm _ _ _ E2). cbn [obind] in *. (injection H as <- <-; reflexivity).
Qed.

Lemma elements_mono_le : forall n m s x, (n <= m)%nat -> elements n s = Some x -> elements m s = Some x.
Proof. intros n m s x H. induction H; auto. intros V. apply value_mono. auto. Qed.

Lemma parses_some : forall s j, parses s j -> exists c r, skip_ws s = c :: r /\ c <> 93.
Proof.
  intros s j (n & r & V & _). destruct n as [|n]; [discriminate V|]. cbn [value] in V. destruct (skip_ws s) as [|c q]; [discriminate V|].
  exists c, q. split; [reflexivity|]. intros ->. cbn in V. discriminate V.
Qed.

Lemma elements_commas : forall l js, values l js -> l <> [] -> exists n, forall rest, elements n (commas l ++ 93 :: rest) = Some (js, rest).
Proof.
  intros l js H. induction H as [|x j l js (n & r & V & W) F IH]; intro NE; [congruence|]. destruct l as [|y l].
  - inversion F; subst. exists (S n). intros rest. cbn [commas elements].
    destruct (value_more (93 :: rest)) with (n := n) as [M _]; [cbn; repeat split; lia|]. rewrite (M _ _ _ V). cbn [obind]. rewrite ws_all by exact W. reflexivity.
  - destruct IH as (k & K); [discriminate|]. exists (S (Nat.max n k)). intros rest.
    change (commas (x :: y :: l)) with (x ++ 44 :: commas (y :: l)). rewrite <- app_assoc. cbn [app]. set (w := commas (y :: l) ++ 93 :: rest) in *.
    cbn [elements]. destruct (value_more (44 :: w)) with (n := n) as [M _]; [cbn; repeat split; lia|].
    rewrite (value_mono_le n _ _ _ (Nat.le_max_l _ _) (M _ _ _ V)). cbn [obind]. rewrite ws_all by exact W. cbn.
    unfold w in *. erewrite elements_mono_le; [|apply Nat.le_max_r|apply K]. reflexivity.
Qed.
Lemma commas_some : forall l js, values l js -> l <> [] -> forall rest, exists c r, skip_ws (commas l ++ rest) = c :: r /\ c <> 93.
Proof.
  intros l js H NE rest. destruct H as [|x j l js P F]; [congruence|]. destruct (parses_some _ _ P) as (c & r & W & N).
  destruct l; cbn [commas]; [|rewrite <- app_assoc]; eauto using ws_more.
Qed.
Lemma array_value : forall l js, values l js -> exists n, value n (91 :: commas l ++ [93]) = Some (JArr js, []).
Proof.
  intros l js H. destruct l as [|x l].
  - inversion H; subst. exists 1%nat. reflexivity.
  - destruct (elements_commas _ _ H) as (n & E); [discriminate|]. exists (S n). cbn [value skip_ws]. change (is_ws 91) with false. cbn [Z.eqb Pos.eqb].
    destruct (commas_some _ _ H) with (rest := [93]) as (c & r & W & N); [discriminate|]. rewrite W. rewrite (proj2 (Z.eqb_neq _ _) N). rewrite E. reflexivity.
Qed.
(** An array in a bracket more is no JSON *)
Lemma bracket_value : forall s n js j, value n (91 :: s) = Some (JArr js, []) -> ~ parses (91 :: 91 :: s) j.
Proof.
  intros s n js j V (m & r & P & _). destruct m as [|m]; [discriminate P|]. cbn [value skip_ws] in P. change (is_ws 91) with false in P. cbn [Z.eqb Pos.eqb] in P.
  destruct m as [|m]; [discriminate P|]. cbn [elements] in P. destruct (value m (91 :: s)) as [[v q]|] eqn:E; [|discriminate P].
  apply (value_mono_le _ (Nat.max n m)) in V; [|lia]. apply (value_mono_le _ (Nat.max n m)) in E; [|lia]. rewrite V in E. injection E as <- <-. discriminate P.
Qed.

Lemma writeEvents_more : forall l i, writeEvents (S i) l = flat_map (fun e => 44 :: e) l.
Proof. induction l as [|e l IH]; intro i; [reflexivity|]. cbn [writeEvents flat_map]. rewrite IH. reflexivity. Qed.
Lemma commas_flat : forall l x, commas (x :: l) = x ++ flat_map (fun e => 44 :: e) l.
Proof. induction l as [|e l IH]; intro x; [cbn; now rewrite app_nil_r|]. change (commas (x :: e :: l)) with (x ++ 44 :: commas (e :: l)). rewrite IH. reflexivity. Qed.
Lemma body_eq : forall l, body l = 91 :: 91 :: commas l ++ [93].
Proof.
  intros [|e l]; [reflexivity|]. unfold body. cbn [writeEvents]. rewrite writeEvents_more, commas_flat. reflexivity.
Qed.

(** * The queue *)
Lemma run_app : forall l1 l2 q, run q (l1 ++ l2) = let? p := run q l1 in let? r := run (fst p) l2 in Some (fst r, snd p ++ snd r).
Proof.
  induction l1 as [|e l1 IH]; intros l2 q; cbn [run app].
  - cbn [obind fst snd app]. destruct (run q l2) as [[q' o]|]; reflexivity.
  - destruct (step q e) as [[q' o]|]; [|reflexivity]. cbn [obind fst snd]. rewrite IH. destruct (run q' l1) as [[q2 o2]|]; [|reflexivity]. cbn [obind fst snd].
    destruct (run q2 l2) as [[q3 o3]|]; [|reflexivity]. cbn [obind fst snd]. now rewrite app_assoc.
Qed.
Lemma run_ind : forall P : list event -> queue -> list output -> Prop,
  P [] newEventQueue [] ->
  (forall l q o e q' o', run newEventQueue l = Some (q, o) -> P l q o -> step q e = Some (q', o') -> P (l ++ [e]) q' (o ++ o')) ->
  forall l q o, run newEventQueue l = Some (q, o) -> P l q o.
Proof.
  intros P P0 PS l. induction l as [|e l IH] using rev_ind; intros q o R; [injection R as <- <-; exact P0|].
  rewrite run_app in R. destruct (run newEventQueue l) as [[q1 o1]|] eqn:R1; [|discriminate R]. cbn [obind fst snd run] in R.
  destruct (step q1 e) as [[q2 o2]|] eqn:E; [|discriminate R]. cbn [obind fst snd] in R. injection R as <- <-. rewrite app_nil_r. eapply PS; [exact R1|apply IH; reflexivity|exact E].
Qed.

Lemma accepted_app : forall a b, accepted (a ++ b) = accepted a ++ accepted b.
Proof. intros. apply flat_map_app. Qed.
Lemma taken_app : forall a b, taken (a ++ b) = taken a ++ taken b.
Proof. intros. apply flat_map_app. Qed.
Lemma taken_by_app : forall r a b, taken_by r (a ++ b) = taken_by r a ++ taken_by r b.
Proof. intros. apply flat_map_app. Qed.
Lemma responses_app : forall r a b, responses r (a ++ b) = responses r a ++ responses r b.
Proof. intros. apply flat_map_app. Qed.
Lemma messages_app : forall a b, messages (a ++ b) = messages a ++ messages b.
Proof. intros. apply flat_map_app. Qed.
Lemma drops_app : forall a b, drops (a ++ b) = (drops a + drops b)%nat.
Proof. intros. unfold drops. now rewrite filter_app, app_length. Qed.
Lemma passes_app : forall r a b, passes r (a ++ b) = (passes r a + passes r b)%nat.
Proof. intros. unfold passes. now rewrite filter_app, app_length. Qed.

(** The cases of a step *)
Ltac steps E :=
  match type of E with step ?q ?e = Some _ => destruct e as [buf|rx|rx|rx|rx]; cbn [step] in E;
    [unfold Write in E; destruct (Nat.ltb (List.length (msgChan q)) capacity) eqn:CAP; apply (f_equal (fun o => match o with Some x => x | None => (q, []) end)) in E; cbv beta iota zeta in E; apply pair_equal_spec in E as [<- <-]
    |destruct (reqs q rx) eqn:RQ; try discriminate E; injection E as <- <-
    |destruct (reqs q rx) eqn:RQ; try discriminate E; destruct (msgChan q) as [|buf c] eqn:CH; try discriminate E; injection E as <- <-
    |destruct (reqs q rx) eqn:RQ; try discriminate E; injection E as <- <-
    |destruct (reqs q rx) as [| |ev|] eqn:RQ; try discriminate E; destruct (msgChan q) as [|buf c] eqn:CH;
      [|destruct (Nat.ltb limit (List.length (ev ++ [buf]))) eqn:LIM]; apply (f_equal (fun o => match o with Some x => x | None => (q, []) end)) in E; cbv beta iota zeta in E; apply pair_equal_spec in E as [<- <-]] end.

Lemma msg_accepted : forall b d, accepted (if b : bool then [OMessage d] else []) = [].
Proof. intros [] d; reflexivity. Qed.
Lemma msg_taken : forall b d, taken (if b : bool then [OMessage d] else []) = [].
Proof. intros [] d; reflexivity. Qed.
Lemma msg_taken_by : forall r b d, taken_by r (if b : bool then [OMessage d] else []) = [].
Proof. intros r [] d; reflexivity. Qed.
Lemma msg_responses : forall r b d, responses r (if b : bool then [OMessage d] else []) = [].
Proof. intros r [] d; reflexivity. Qed.
Lemma msg_drops : forall b d, drops (if b : bool then [OMessage d] else []) = O.
Proof. intros [] d; reflexivity. Qed.

Lemma order : forall l q o, run newEventQueue l = Some (q, o) -> accepted o = taken o ++ msgChan q.
Proof.
  apply (run_ind (fun l q o => accepted o = taken o ++ msgChan q)); [reflexivity|]. intros l q o e q' o' _ IH E. rewrite accepted_app, taken_app, IH.
  steps E; cbn [accepted taken flat_map msgChan set app]; rewrite ?accepted_app, ?taken_app, ?msg_accepted, ?msg_taken; cbn [accepted taken flat_map app];
    rewrite ?app_nil_r, <- ?app_assoc; try rewrite CH; try reflexivity.
Qed.
Lemma room : forall l q o, run newEventQueue l = Some (q, o) -> (List.length (msgChan q) <= capacity)%nat.
Proof.
  apply (run_ind (fun l q o => (List.length (msgChan q) <= capacity)%nat)); [apply Nat.le_0_l|]. intros l q o e q' o' _ IH E.
  steps E; cbn [msgChan set]; try exact IH; try (rewrite CH in IH; cbn [List.length] in IH); rewrite ?app_length; cbn [List.length]; try lia.
  all: try (apply Nat.ltb_lt in CAP; lia). all: try (cbn [List.length]; apply Nat.le_0_l). all: cbn [List.length] in IH; lia.
Qed.

(** Where a request is, and what it has done *)
Definition at_rpc (r : nat) (p : rpc) (n : nat) (o : list output) : Prop :=
  match p with
  | RFresh | RWaits => taken_by r o = [] /\ responses r o = [] /\ n = O
  | RHas ev => taken_by r o = ev /\ responses r o = [] /\ (List.length ev <= limit)%nat /\ (n <= List.length ev)%nat
  | ROver => responses r o = [body (taken_by r o)] /\ (List.length (taken_by r o) <= S limit)%nat /\ (n <= S limit)%nat
  end.
Lemma limit_pos : (1 <= limit)%nat.
Proof. apply Nat.leb_le. vm_compute. reflexivity. Qed.
Lemma requests : forall r l q o, run newEventQueue l = Some (q, o) -> at_rpc r (reqs q r) (passes r l) o.
Proof.
  intro r0. apply (run_ind (fun l q o => at_rpc r0 (reqs q r0) (passes r0 l) o)); [repeat split|]. intros l q o e q' o' _ IH E. pose proof limit_pos as LP.
  steps E; cbn [reqs set].
  1,2: replace (passes r0 (l ++ [EWrite buf])) with (passes r0 l) by (rewrite passes_app; cbn; lia);
    unfold at_rpc in *; rewrite ?taken_by_app, ?responses_app, ?taken_by_app, ?responses_app, ?msg_taken_by, ?msg_responses;
    cbn [taken_by responses flat_map app]; rewrite ?app_nil_r; exact IH.
  all: rewrite (Nat.eqb_sym r0 rx); destruct (Nat.eqb_spec rx r0) as [X|X]; [subst r0; rewrite RQ in IH|];
    unfold at_rpc in *; rewrite ?taken_by_app, ?responses_app, passes_app;
    cbn [taken_by responses flat_map app passes filter List.length]; rewrite ?Nat.eqb_refl, ?(proj2 (Nat.eqb_neq _ _) X); cbn [app filter List.length]; rewrite ?app_nil_r, ?Nat.add_0_r; try exact IH.
  - destruct IH as (-> & -> & ->). repeat split. cbn. exact LP. apply Nat.le_0_l.
  - destruct IH as (-> & -> & ->). repeat split. apply Nat.le_0_l. apply Nat.le_0_l.
  - destruct IH as (A & B & C & D). rewrite A, B. repeat split; [lia|]. lia.
  - destruct IH as (A & B & C & D). rewrite A, B. rewrite app_length. cbn [List.length]. repeat split; lia.
  - destruct IH as (A & B & C & D). rewrite A, B. apply Nat.ltb_ge in LIM. rewrite app_length in *. cbn [List.length] in *. repeat split; lia.
Qed.

(** * The counter and the messages *)
Lemma counter : forall l q o, run newEventQueue l = Some (q, o) -> droppedEventsCount q = Z.of_nat (drops o) mod 2 ^ 64.
Proof.
  apply (run_ind (fun l q o => droppedEventsCount q = Z.of_nat (drops o) mod 2 ^ 64)); [reflexivity|]. intros l q o e q' o' _ IH E. rewrite drops_app.
  steps E; cbn [droppedEventsCount set]; rewrite ?drops_app, ?msg_drops; try (replace (drops _ + _)%nat with (drops o) by (cbn; lia); exact IH).
  replace (drops o + (0 + drops [OReturn (List.length buf) None]))%nat with (S (drops o)) by (cbn; lia).
  rewrite Nat2Z.inj_succ, IH. rewrite Zplus_mod_idemp_l. reflexivity.
Qed.
Lemma due_S : forall n, due (S n) = due n ++ (if Nat.eqb (Nat.modulo (S n) (Z.to_nat 10000)) 1 then [Z.of_nat (S n)] else []).
Proof.
  intro n. unfold due. rewrite seq_S, filter_app, map_app. cbn [filter Nat.add]. destruct (Nat.eqb _ 1); reflexivity.
Qed.
Lemma told : forall l q o, run newEventQueue l = Some (q, o) -> Z.of_nat (drops o) < 2 ^ 64 -> messages o = due (drops o).
Proof.
  apply (run_ind (fun l q o => Z.of_nat (drops o) < 2 ^ 64 -> messages o = due (drops o))); [reflexivity|]. intros l q o e q' o' R IH E B.
  rewrite drops_app in B. assert (B0 : Z.of_nat (drops o) < 2 ^ 64) by (clear - B; lia). specialize (IH B0). rewrite messages_app, drops_app, IH. clear IH. pose proof (counter _ _ _ R) as C. clear R.
  steps E; rewrite ?drops_app, ?msg_drops in *;
    try (match goal with |- context [drops [?x]] => change (drops [x]) with O | |- context [drops []] => change (drops []) with O | |- context [drops [?x; ?y]] => change (drops [x; y]) with O end;
      rewrite Nat.add_0_r; cbn [messages flat_map app]; apply app_nil_r).
  change (drops [OReturn (List.length buf) None]) with 1%nat in *. rewrite Nat.add_0_l, Nat.add_1_r in *. rewrite due_S. f_equal.
  assert (D : (droppedEventsCount q + 1) mod 2 ^ 64 = Z.of_nat (drops o) + 1) by (rewrite C, Zplus_mod_idemp_l; apply Z.mod_small; lia).
  rewrite D. rewrite messages_app. cbn [messages flat_map app]. rewrite app_nil_r.
  replace ((Z.of_nat (drops o) + 1) mod 10000 =? 1) with (Nat.eqb (Nat.modulo (S (drops o)) (Z.to_nat 10000)) 1).
  - replace (Z.of_nat (drops o) + 1) with (Z.of_nat (S (drops o))) by lia. destruct (Nat.eqb _ 1); reflexivity.
  - replace (Z.of_nat (drops o) + 1) with (Z.of_nat (S (drops o))) by lia. rewrite <- (Z2Nat.id 10000) at 2 by lia. rewrite <- Nat2Z.inj_mod.
    destruct (Nat.eqb_spec (Nat.modulo (S (drops o)) (Z.to_nat 10000)) 1) as [-> |N]; [reflexivity|]. symmetry. apply Z.eqb_neq. lia.
Qed.
