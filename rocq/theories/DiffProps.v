(** Properties C44-C47 and C61-C63: the difference library that the test helpers use. *)
From Verif Require Import Base DiffModel DiffSpec DiffProofs DiffBlockProofs DiffCodeProofs DiffGroupProofs DiffTextProofs DiffWriteProofs DiffStepProofs.

(** * C44: matching blocks *)

Lemma separated_valid : forall a b l, separated a b l (lenZ a) (lenZ b) -> valid_blocks a b (l ++ [mkMatch (lenZ a) (lenZ b) 0]).
Proof.
  assert (S0 : forall a b l i j, 0 <= i -> 0 <= j -> sep a b i j l (lenZ a) (lenZ b) -> i <= lenZ a /\ j <= lenZ b /\
    Forall (fun m => 0 < mSize m /\ common_run a b 0 (lenZ a) 0 (lenZ b) (mA m) (mB m) (mSize m)) l).
  { intros a b l. induction l as [|m l IH]; intros i j Hi Hj H; cbn [sep] in H; [split; [lia|split; [lia|constructor]]|].
    destruct H as (H1 & H2 & H3 & [B1 B2] & H4). destruct (IH (mA m + mSize m) (mB m + mSize m) ltac:(lia) ltac:(lia) H4) as (K1 & K2 & K3).
    split; [lia|]. split; [lia|]. constructor; [|exact K3]. split; [exact B1|]. unfold common_run. repeat (split; [lia|]). apply eq_part; try lia. exact B2. }
  assert (S1 : forall a b l i j, sep a b i j l (lenZ a) (lenZ b) -> forall k m m' r, l = k ++ m :: m' :: r ->
    mA m + mSize m <= mA m' /\ mB m + mSize m <= mB m' /\ ~ (mA m + mSize m = mA m' /\ mB m + mSize m = mB m')).
  { intros a b l. induction l as [|m0 l IH]; intros i j H k m m' r E; [destruct k; discriminate|]. destruct H as (_ & _ & _ & _ & H).
    destruct k as [|m1 k]; cbn [app] in E; injection E as -> E.
    - subst l. cbn [sep] in H. destruct H as (H1 & H2 & H3 & _). auto.
    - exact (IH _ _ H k m m' r E). }
  intros a b l H. exists l. split; [reflexivity|]. destruct l as [|m l]; cbn [separated] in H.
  - split; [constructor|]. intros [|? ?] ? ? ? E; discriminate E.
  - destruct H as (H1 & H2 & [B1 B2] & H3). destruct (S0 a b l (mA m + mSize m) (mB m + mSize m) ltac:(lia) ltac:(lia) H3) as (K1 & K2 & K3). split.
    + constructor; [|exact K3]. split; [exact B1|]. unfold common_run. repeat (split; [lia|]). apply eq_part; try lia. exact B2.
    + intros [|m1 k] m2 m' r E; cbn [app] in E; injection E as -> E.
      * subst l. cbn [sep] in H3. destruct H3 as (J1 & J2 & J3 & _). auto.
      * exact (S1 a b l _ _ H3 k m2 m' r E).
Qed.

Lemma history : forall a b autoJunk isJunk h, exists m, performs (NewMatcherWithJunk a b autoJunk isJunk) h = Some m /\ wf m /\
  seqA m = fst (current a b h) /\ seqB m = snd (current a b h) /\ DiffModel.isJunk m = isJunk /\ DiffModel.autoJunk m = autoJunk /\
  (existsb isGrouped h = false -> fresh m).
Proof.
  intros a b aj ij h. destruct (new_wf a b aj ij) as (W & F & A1 & A2 & A3 & A4).
  destruct (performs_ok h _ W) as (m & E & W' & S' & J' & A' & F'). exists m. rewrite A1, A2 in S'. fold (current a b h) in S'.
  split; [exact E|]. split; [exact W'|]. rewrite <- S'. split; [reflexivity|]. split; [reflexivity|]. split; [congruence|]. split; [congruence|].
  intro G. now apply F'.
Qed.

(** Whatever was called before: the blocks are valid for the sequences that were set last *)
Theorem C44_blocks : forall a b autoJunk isJunk h, exists m m' bl,
  performs (NewMatcherWithJunk a b autoJunk isJunk) h = Some m /\ GetMatchingBlocks m = Some (m', bl) /\
  valid_blocks (fst (current a b h)) (snd (current a b h)) bl.
Proof.
  intros a b aj ij h. destruct (history a b aj ij h) as (m & E & W & A1 & A2 & _). destruct (getBlocks_ok m W) as (m' & bl & G & B & _).
  exists m, m', bl. split; [exact E|]. split; [exact G|]. rewrite <- A1, <- A2.
  destruct (computeBlocks_ok (seqA m) (seqB m) (isJunk m) (autoJunk m)) as (l & E' & S'). unfold blocksOf in B. rewrite B in E'. injection E' as ->.
  now apply separated_valid.
Qed.
(** They match the lines that the method of the documentation matches *)
Theorem C44_method : forall a b autoJunk isJunk h, exists m m' bl l,
  performs (NewMatcherWithJunk a b autoJunk isJunk) h = Some m /\ GetMatchingBlocks m = Some (m', bl) /\
  let a' := fst (current a b h) in let b' := snd (current a b h) in
  matched a' b' (interesting isJunk autoJunk b') (junk_line isJunk) 0 (lenZ a') 0 (lenZ b') l /\ pairs bl = pairs l.
Proof.
  intros a b aj ij h. destruct (history a b aj ij h) as (m & E & W & A1 & A2 & A3 & A4 & _). destruct (getBlocks_ok m W) as (m' & bl & G & B & _).
  destruct (computeBlocks_matched (seqA m) (seqB m) (isJunk m) (autoJunk m)) as (bl' & l & E' & M & P). unfold blocksOf in B. rewrite B in E'. injection E' as <-.
  exists m, m', bl, l. split; [exact E|]. split; [exact G|]. cbv zeta. rewrite <- A1, <- A2, <- A3, <- A4. auto.
Qed.
(** One step of it, in every window *)
Theorem C44_best : forall a b isJunk autoJunk alo ahi blo bhi, 0 <= alo <= ahi -> ahi <= lenZ a -> 0 <= blo <= bhi -> bhi <= lenZ b ->
  exists m, findLongestMatch a b (fst (chainB isJunk autoJunk b)) (snd (chainB isJunk autoJunk b)) alo ahi blo bhi = Some m /\
    best a b (interesting isJunk autoJunk b) (junk_line isJunk) alo ahi blo bhi m /\
    (forall i j k, common_run a b alo ahi blo bhi i j k -> Forall (interesting isJunk autoJunk b) (part a i (i + k)) -> k <= mSize m).
Proof.
  intros a b ij aj alo ahi blo bhi H1 H2 H3 H4. destruct (findLongestMatch_best a b ij aj alo ahi blo bhi ltac:(lia) ltac:(lia)) as (m & E & B).
  exists m. split; [exact E|]. split; [exact B|]. intros i j k R F. destruct B as (m0 & m1 & C & D1 & D2).
  destruct C as (_ & _ & C). destruct (C i j k R F) as [L|[L _]]; destruct D1 as (D1 & _ & D1' & _); destruct D2 as (D2 & _ & D2' & _); lia.
Qed.
(** What difflib.go:199-214 says: the longest common run, the first in a, then in b: if no line of b is junk or popular *)
Theorem C44_first : forall a b isJunk autoJunk alo ahi blo bhi, 0 <= alo <= ahi -> ahi <= lenZ a -> 0 <= blo <= bhi -> bhi <= lenZ b ->
  Forall (interesting isJunk autoJunk b) b ->
  exists m, findLongestMatch a b (fst (chainB isJunk autoJunk b)) (snd (chainB isJunk autoJunk b)) alo ahi blo bhi = Some m /\
    common_run a b alo ahi blo bhi (mA m) (mB m) (mSize m) /\
    forall i j k, common_run a b alo ahi blo bhi i j k -> k < mSize m \/ (k = mSize m /\ earlier (mA m) (mB m) i j).
Proof.
  intros a b ij aj alo ahi blo bhi H1 H2 H3 H4 I. destruct (findLongestMatch_best a b ij aj alo ahi blo bhi ltac:(lia) ltac:(lia)) as (m & E & B).
  assert (A : forall i j k, common_run a b alo ahi blo bhi i j k -> Forall (interesting ij aj b) (part a i (i + k))).
  { intros i j k (R1 & R2 & R3 & R4 & R5 & R6). rewrite R6. apply forall_part; try lia. intros p x Hp Ex. rewrite Forall_forall in I. apply I.
    now apply nthZ_In with (1 := Ex). }
  exists m. split; [exact E|].
  destruct B as (m0 & m1 & C & D1 & D2). destruct C as (C1 & C2 & C).
  assert (R : common_run a b alo ahi blo bhi (mA m) (mB m) (mSize m)) by apply D2. split; [exact R|].
  assert (m = m0) as ->.
  { destruct D1 as (X1 & X2 & X3 & _). destruct D2 as (Y1 & Y2 & Y3 & _). destruct (C _ _ _ R (A _ _ _ R)) as [L|[L Er]]; [lia|].
    unfold earlier in Er. destruct m as [x1 x2 x3], m0 as [y1 y2 y3]. cbn [mA mB mSize] in *. f_equal; lia. }
  intros i j k R'. apply C; [exact R'|]. exact (A _ _ _ R').
Qed.

(** Without a function for junk, by NewMatcher: not so *)
Definition C44_full : Prop := forall a b alo ahi blo bhi, 0 <= alo <= ahi -> ahi <= lenZ a -> 0 <= blo <= bhi -> bhi <= lenZ b ->
  exists m, findLongestMatch a b (junkB (NewMatcher a b)) (index (NewMatcher a b)) alo ahi blo bhi = Some m /\
    forall i j k, common_run a b alo ahi blo bhi i j k -> k <= mSize m.
Definition many_x : list bytes := repeat (bs "x") 200.
Theorem C44_popular_refuted :
  (forall m', GetMatchingBlocks (NewMatcher [bs "y"; bs "x"; bs "x"] many_x) = Some m' -> snd m' = [mkMatch 3 200 0]) /\
  findLongestMatch [bs "y"; bs "x"; bs "x"] many_x (junkB (NewMatcher [bs "y"; bs "x"; bs "x"] many_x)) (index (NewMatcher [bs "y"; bs "x"; bs "x"] many_x)) 0 3 0 200
    = Some (mkMatch 0 0 0) /\
  common_run [bs "y"; bs "x"; bs "x"] many_x 0 3 0 200 1 0 2.
Proof.
  split; [intros m' H; vm_compute in H; injection H as <-; reflexivity|]. split; [vm_compute; reflexivity|].
  unfold common_run. repeat (split; [lia|]). vm_compute. reflexivity.
Qed.
Theorem C44_full_refuted : ~ C44_full.
Proof.
  intro F. destruct (F [bs "y"; bs "x"; bs "x"] many_x 0 3 0 200) as (m & E & H); try lia; [vm_compute; discriminate|vm_compute; discriminate|].
  destruct C44_popular_refuted as (_ & E' & R). rewrite E' in E. injection E as <-. specialize (H _ _ _ R). cbn [mSize] in H. lia.
Qed.

(** A common line of code, and a function that takes blank lines for junk *)
Definition ex_a : list bytes := map bs ["{"%string; "a"%string; " "%string; "b"%string; "}"%string; "c"%string].
Definition ex_b : list bytes := map bs ["a"%string; " "%string; "b"%string; "x"%string; "}"%string; " "%string; "c"%string].
Definition ex_junk : option (bytes -> bool) := Some (fun s => streq s (bs " ")).
Example C44_blocks_example : exists m,
  performs (NewMatcherWithJunk ex_b ex_b true ex_junk) [CBlocks; CSetSeq1 ex_a; CGrouped 2; CCodes] = Some m /\
  option_map snd (GetMatchingBlocks m) = Some [mkMatch 1 0 3; mkMatch 4 4 1; mkMatch 5 6 1; mkMatch 6 7 0].
Proof. eexists. split; [vm_compute; reflexivity|vm_compute; reflexivity]. Qed.
Example C44_method_example : pairs [mkMatch 1 0 3; mkMatch 4 4 1] = [(1, 0); (2, 1); (3, 2); (4, 4)].
Proof. reflexivity. Qed.
Example C44_best_example : 0 <= 0 <= lenZ ex_a /\ lenZ ex_a <= lenZ ex_a /\ 0 <= 0 <= lenZ ex_b /\
  findLongestMatch ex_a ex_b (fst (chainB ex_junk true ex_b)) (snd (chainB ex_junk true ex_b)) 0 (lenZ ex_a) 0 (lenZ ex_b) = Some (mkMatch 1 0 2).
Proof. change (lenZ ex_a) with 6. change (lenZ ex_b) with 7. repeat (split; [lia|]). vm_compute. reflexivity. Qed.
Example C44_first_example : Forall (interesting None true ex_b) ex_b /\
  findLongestMatch ex_a ex_b (fst (chainB None true ex_b)) (snd (chainB None true ex_b)) 0 (lenZ ex_a) 0 (lenZ ex_b) = Some (mkMatch 1 0 3).
Proof. split; [|vm_compute; reflexivity]. apply Forall_forall. intros s _. split; [exact I|]. intros _ H. cbn in H. lia. Qed.

(** * C45: op codes *)

Lemma codesOf_pairs : forall l i j, pairs (map (fun c => mkMatch (I1 c) (J1 c) (I2 c - I1 c)) (filter (fun c => Tag c =? tag_e) (codesOf i j l))) = pairs l.
Proof.
  induction l as [|m l IH]; intros i j; [reflexivity|]. cbn [codesOf]. rewrite !filter_app, !map_app. unfold pairs in *. rewrite !flat_map_app, IH.
  cbn [flat_map]. set (tag := if (i <? mA m) && (j <? mB m) then _ else _). replace (filter _ (if 0 <? tag then _ else _)) with (@nil OpCode).
  - cbn [map flat_map app]. f_equal. destruct (0 <? mSize m) eqn:E; cbn [filter map flat_map Tag I1 I2 J1].
    + rewrite Z.eqb_refl. cbn [map flat_map mA mB mSize]. rewrite app_nil_r. do 2 f_equal. f_equal. cbn [I1 I2]. lia.
    + replace (Z.to_nat (mSize m)) with 0%nat by lia. reflexivity.
  - subst tag. destruct ((i <? mA m) && (j <? mB m)); [reflexivity|]. destruct (i <? mA m); [reflexivity|]. destruct (j <? mB m); reflexivity.
Qed.

(** Whatever was called before, but GetGroupedOpCodes: the codes turn a into b, and keep the lines that are matched *)
Theorem C45_codes : forall a b autoJunk isJunk h, existsb isGrouped h = false -> exists m m' m'' codes bl,
  performs (NewMatcherWithJunk a b autoJunk isJunk) h = Some m /\ GetOpCodes m = Some (m', codes) /\
  good_codes (fst (current a b h)) (snd (current a b h)) codes /\
  GetMatchingBlocks m = Some (m'', bl) /\
  pairs (map (fun c => mkMatch (I1 c) (J1 c) (I2 c - I1 c)) (filter (fun c => Tag c =? tag_e) codes)) = pairs bl.
Proof.
  intros a b aj ij h N. destruct (history a b aj ij h) as (m & E & W & A1 & A2 & _ & _ & F). specialize (F N).
  destruct (getCodes_ok m W F) as (m' & bl & G & B & _). destruct (getBlocks_ok m W) as (m'' & bl' & G' & B' & _).
  rewrite B in B'. injection B' as <-. exists m, m', m'', (codesOf 0 0 bl), bl. split; [exact E|]. split; [exact G|].
  split; [|split; [exact G'|apply codesOf_pairs]]. rewrite <- A1, <- A2.
  destruct (computeBlocks_ok (seqA m) (seqB m) (isJunk m) (autoJunk m)) as (l & E' & S'). unfold blocksOf in B. rewrite B in E'. injection E' as ->.
  apply right_good. now apply codesOf_ok.
Qed.
Lemma codes_same : forall m, seqA m = seqB m -> exists bl, blocksOf m = Some bl /\
  codesOf 0 0 bl = if 0 <? lenZ (seqA m) then [mkOp tag_e 0 (lenZ (seqA m)) 0 (lenZ (seqA m))] else [].
Proof.
  intros m H. unfold blocksOf. rewrite <- H, computeBlocks_same. eexists. split; [reflexivity|]. pose proof (lenZ_nonneg _ (seqA m)) as N.
  destruct (0 <? lenZ (seqA m)) eqn:E; cbn [app codesOf mA mB mSize Z.ltb Z.compare andb].
  - rewrite E. rewrite !Z.add_0_l, Z.ltb_irrefl. reflexivity.
  - rewrite E. reflexivity.
Qed.
(** Equal sequences: one code, or none *)
Theorem C45_same : forall a b autoJunk isJunk h, existsb isGrouped h = false -> fst (current a b h) = snd (current a b h) -> exists m m',
  performs (NewMatcherWithJunk a b autoJunk isJunk) h = Some m /\
  GetOpCodes m = Some (m', let n := lenZ (fst (current a b h)) in if 0 <? n then [mkOp tag_e 0 n 0 n] else []).
Proof.
  intros a b aj ij h N Eq. destruct (history a b aj ij h) as (m & E & W & A1 & A2 & _ & _ & F). specialize (F N).
  destruct (getCodes_ok m W F) as (m' & bl & G & B & _). exists m, m'. split; [exact E|]. rewrite G.
  destruct (codes_same m ltac:(congruence)) as (bl' & B' & C). rewrite B in B'. injection B' as <-. rewrite C, A1. reflexivity.
Qed.

(** After GetGroupedOpCodes the codes are cut off: it works on the cached ones *)
Definition C45_full : Prop := forall a b autoJunk isJunk h, exists m m' codes,
  performs (NewMatcherWithJunk a b autoJunk isJunk) h = Some m /\ GetOpCodes m = Some (m', codes) /\
  good_codes (fst (current a b h)) (snd (current a b h)) codes.
Definition ten : list bytes := map (fun n => [Z.of_nat n]) (seq 48 10).
Theorem C45_after_grouped_refuted : exists m, performs (NewMatcher ten ten) [CGrouped 3] = Some m /\
  option_map snd (GetOpCodes m) = Some [mkOp tag_e 7 10 7 10] /\ ~ tiles 0 0 [mkOp tag_e 7 10 7 10] 10 10.
Proof. eexists. split; [vm_compute; reflexivity|]. split; [vm_compute; reflexivity|]. intros (H & _). discriminate H. Qed.
Theorem C45_full_refuted : ~ C45_full.
Proof.
  intro F. destruct (F ten ten true None [CGrouped 3]) as (m & m' & codes & E & G & (_ & T & _)). destruct C45_after_grouped_refuted as (m0 & E0 & G0 & N).
  unfold NewMatcher in E0. rewrite E in E0. injection E0 as <-. rewrite G in G0. cbn [option_map snd] in G0. injection G0 as ->. exact (N T).
Qed.
Example C45_example : exists m,
  existsb isGrouped [CCodes; CSetSeqs ex_a ex_b] = false /\ performs (NewMatcher ten ten) [CCodes; CSetSeqs ex_a ex_b] = Some m /\
  option_map snd (GetOpCodes m) =
    Some [mkOp tag_d 0 1 0 0; mkOp tag_e 1 4 0 3; mkOp tag_i 4 4 3 4; mkOp tag_e 4 5 4 5; mkOp tag_i 5 5 5 6; mkOp tag_e 5 6 6 7].
Proof. eexists. split; [reflexivity|]. split; [vm_compute; reflexivity|vm_compute; reflexivity]. Qed.
Example C45_same_example : existsb isGrouped [CSetSeq1 ex_b; CBlocks] = false /\
  fst (current ex_a ex_b [CSetSeq1 ex_b; CBlocks]) = snd (current ex_a ex_b [CSetSeq1 ex_b; CBlocks]) /\ lenZ ex_b = 7.
Proof. repeat split. Qed.

(** * C46: groups *)

(** The changes are those of the op codes, for every n *)
Theorem C46_changes : forall a b autoJunk isJunk h n, exists m m' m'' gs codes,
  performs (NewMatcherWithJunk a b autoJunk isJunk) h = Some m /\
  GetGroupedOpCodes m n = Some (m', gs) /\ GetOpCodes m = Some (m'', codes) /\ changes (List.concat gs) = changes codes.
Proof.
  intros a b aj ij h n. destruct (history a b aj ij h) as (m & E & W & _). destruct (getCodes_total m W) as (m'' & codes & G & _).
  unfold GetGroupedOpCodes. exists m. rewrite G. cbn [obind]. destruct codes as [|c r]; eexists; exists m''; eexists; eexists; (split; [exact E|]);
    (split; [reflexivity|]); (split; [reflexivity|]); rewrite groupLoop_changes, fixCodes_changes; reflexivity.
Qed.
(** What the groups are, for every n below 2^62 *)
Theorem C46_groups : forall a b autoJunk isJunk h n, existsb isGrouped h = false -> asked n < 2 ^ 62 ->
  let a' := fst (current a b h) in let b' := snd (current a b h) in
  lenZ a' < 2 ^ 62 -> lenZ b' < 2 ^ 62 -> exists m m' gs,
  performs (NewMatcherWithJunk a b autoJunk isJunk) h = Some m /\ GetGroupedOpCodes m n = Some (m', gs) /\ grouped (asked n) a' b' 0 0 (asked n) gs.
Proof.
  intros a b aj ij h n N Hn a' b' La Lb. destruct (history a b aj ij h) as (m & E & W & A1 & A2 & _ & _ & F). specialize (F N).
  destruct (grouped_of m n W F Hn) as (m' & gs & _ & _ & G & _ & Gr & _); [now rewrite A1|now rewrite A2|].
  exists m, m', gs. split; [exact E|]. split; [exact G|]. unfold a', b'. now rewrite <- A1, <- A2.
Qed.

Lemma fixFirst_idem : forall n c, 0 <= n < 2 ^ 62 -> 0 <= I2 c < 2 ^ 62 -> 0 <= J2 c < 2 ^ 62 -> fixFirst n (fixFirst n c) = fixFirst n c.
Proof.
  intros n c Hn H1 H2. unfold fixFirst. destruct (Tag c =? tag_e) eqn:E; cbn [Tag I1 I2 J1 J2]; rewrite E; [|reflexivity].
  rewrite !int64_id by lia. f_equal; lia.
Qed.
Lemma fixLast_idem : forall n c, 0 <= n < 2 ^ 62 -> 0 <= I1 c < 2 ^ 62 -> 0 <= J1 c < 2 ^ 62 -> fixLast n (fixLast n c) = fixLast n c.
Proof.
  intros n c Hn H1 H2. unfold fixLast, cutLast. destruct (Tag c =? tag_e) eqn:E; cbn [Tag I1 I2 J1 J2]; rewrite E; [|reflexivity].
  rewrite !int64_id by lia. f_equal; lia.
Qed.
Lemma fixEnd_idem : forall n l, 0 <= n < 2 ^ 62 -> Forall (fun c => 0 <= I1 c < 2 ^ 62 /\ 0 <= J1 c < 2 ^ 62) l -> fixEnd n (fixEnd n l) = fixEnd n l.
Proof.
  intros n l Hn. induction l as [|c [|c' l] IH]; intro F; [reflexivity| |].
  - inversion F as [|? ? [F1 F2] _]; subst. cbn [fixEnd]. now rewrite fixLast_idem.
  - inversion F as [|? ? _ F2]; subst. specialize (IH F2).
    change (fixEnd n (c :: c' :: l)) with (c :: fixEnd n (c' :: l)). destruct (fixEnd n (c' :: l)) as [|x r] eqn:E; [destruct l; discriminate E|].
    change (fixEnd n (c :: x :: r)) with (c :: fixEnd n (x :: r)). now rewrite IH.
Qed.
Lemma fixCodes_idem : forall n l, 0 <= n < 2 ^ 62 -> Forall (fun c => 0 <= I1 c <= I2 c /\ I2 c < 2 ^ 62 /\ 0 <= J1 c <= J2 c /\ J2 c < 2 ^ 62) l ->
  fixCodes n (fixCodes n l) = fixCodes n l.
Proof.
  intros n [|c r] Hn F; [reflexivity|]. inversion F as [|? ? (F1 & F2 & F3 & F4) Fr]; subst.
  assert (B : I2 (fixFirst n c) = I2 c /\ J2 (fixFirst n c) = J2 c /\ 0 <= I1 (fixFirst n c) < 2 ^ 62 /\ 0 <= J1 (fixFirst n c) < 2 ^ 62).
  { unfold fixFirst. destruct (Tag c =? tag_e); cbn [I1 I2 J1 J2]; rewrite ?int64_id by lia; repeat split; lia. }
  destruct B as (B1 & B2 & B3 & B4). unfold fixCodes at 2. destruct r as [|c' r].
  - cbn [fixEnd]. unfold fixCodes. cbn [fixEnd].
    assert (K : fixFirst n (fixLast n (fixFirst n c)) = fixLast n (fixFirst n c)).
    { unfold fixFirst, fixLast, cutLast. destruct (Tag c =? tag_e) eqn:E; cbn [Tag I1 I2 J1 J2]; rewrite ?E; cbn [Tag I1 I2 J1 J2]; rewrite ?E; [|reflexivity].
      rewrite (int64_id (I2 c - n)), (int64_id (J2 c - n)) by lia.
      rewrite (int64_id (Z.max (I1 c) (I2 c - n) + n)), (int64_id (Z.max (J1 c) (J2 c - n) + n)) by lia. rewrite !int64_id by lia. f_equal; lia. }
    rewrite K. f_equal. apply fixLast_idem; try assumption; lia.
  - change (fixEnd n (fixFirst n c :: c' :: r)) with (fixFirst n c :: fixEnd n (c' :: r)). unfold fixCodes. rewrite fixFirst_idem by lia.
    cbn [fixEnd]. fold (fixEnd n). change (fixEnd n (fixFirst n c :: fixEnd n (c' :: r)) = fixFirst n c :: fixEnd n (c' :: r)).
    assert (G : fixEnd n (fixEnd n (c' :: r)) = fixEnd n (c' :: r)).
    { apply fixEnd_idem; [exact Hn|]. eapply Forall_impl; [|exact Fr]. cbv beta. intros x (X1 & X2 & X3 & X4). split; lia. }
    destruct (fixEnd n (c' :: r)) as [|x s] eqn:Ex; [destruct r; discriminate Ex|].
    change (fixEnd n (fixFirst n c :: x :: s)) with (fixFirst n c :: fixEnd n (x :: s)). now rewrite G.
Qed.
(** Asking twice gives the same groups, although the first call changes the op codes *)
Theorem C46_again : forall a b autoJunk isJunk h n, existsb isGrouped h = false -> asked n < 2 ^ 62 ->
  lenZ (fst (current a b h)) < 2 ^ 62 -> lenZ (snd (current a b h)) < 2 ^ 62 -> exists m m' m'' gs,
  performs (NewMatcherWithJunk a b autoJunk isJunk) h = Some m /\ GetGroupedOpCodes m n = Some (m', gs) /\ GetGroupedOpCodes m' n = Some (m'', gs).
Proof.
  intros a b aj ij h n N Hn La Lb. destruct (history a b aj ij h) as (m & E & W & A1 & A2 & _ & _ & F). specialize (F N).
  unfold GetGroupedOpCodes. destruct (getCodes_ok m W F) as (m1 & bl & G & B & W1 & F1 & _). exists m. rewrite G. cbn [obind].
  assert (Hn0 : 0 <= asked n) by (unfold asked; destruct (n <? 0) eqn:E'; lia). fold (asked n).
  destruct (computeBlocks_ok (seqA m) (seqB m) (isJunk m) (autoJunk m)) as (l & E' & S'). unfold blocksOf in B. rewrite B in E'. injection E' as ->.
  pose proof (codesOf_ok (seqA m) (seqB m) l S') as (T & R & Al).
  set (codes := codesOf 0 0 (l ++ [mkMatch (lenZ (seqA m)) (lenZ (seqB m)) 0])) in *.
  assert (O : Forall (okc (seqA m) (seqB m)) codes) by (apply (right_okc (seqA m) (seqB m) codes 0 0); try lia; assumption).
  assert (C1 : codesCache m1 = Some codes).
  { unfold GetOpCodes in G. destruct (codesCache m) as [cc|] eqn:Ec; [injection G as -> ->; exact Ec|].
    destruct (GetMatchingBlocks m) as [[m2 bl]|]; [|discriminate]. cbn [obind] in G. injection G as <- <-. reflexivity. }
  destruct codes as [|c r] eqn:Ec.
  - exists m1, m1. eexists. split; [exact E|]. split; [reflexivity|]. unfold GetOpCodes. rewrite C1. reflexivity.
  - eexists. eexists. eexists. split; [exact E|]. split; [reflexivity|]. unfold GetOpCodes, setCodes at 1. cbn [codesCache obind].
    destruct (fixCodes (asked n) (c :: r)) as [|x s] eqn:Ex.
    + unfold fixCodes in Ex. destruct r; discriminate Ex.
    + rewrite <- Ex, fixCodes_idem; [reflexivity|lia|]. eapply Forall_impl; [|exact O]. rewrite A1, A2. intros y (Y1 & Y2 & Y3 & Y4 & _). lia.
Qed.

(** A larger n later gives no more context; an n of 2^62 gives a group without a change *)
Definition C46_full : Prop := forall a b autoJunk isJunk h n,
  let a' := fst (current a b h) in let b' := snd (current a b h) in
  lenZ a' < 2 ^ 62 -> lenZ b' < 2 ^ 62 -> exists m m' gs,
  performs (NewMatcherWithJunk a b autoJunk isJunk) h = Some m /\ GetGroupedOpCodes m n = Some (m', gs) /\ grouped (asked n) a' b' 0 0 (asked n) gs.
Definition eleven : list bytes := ten ++ [bs "z"].
Theorem C46_later_refuted : exists m, performs (NewMatcher ten eleven) [CGrouped 0] = Some m /\
  option_map snd (GetGroupedOpCodes m 3) = Some [[mkOp tag_e 10 10 10 10; mkOp tag_i 10 10 10 11]] /\
  option_map snd (GetGroupedOpCodes (NewMatcher ten eleven) 3) = Some [[mkOp tag_e 7 10 7 10; mkOp tag_i 10 10 10 11]].
Proof. eexists. split; [vm_compute; reflexivity|]. split; vm_compute; reflexivity. Qed.
Theorem C46_huge_refuted : option_map snd (GetGroupedOpCodes (NewMatcher [] []) (2 ^ 62)) = Some [[mkOp tag_e 0 1 0 1]] /\
  changes [mkOp tag_e 0 1 0 1] = [] /\ (forall decimal other, GetUnifiedDiffString decimal other (mkDiff [] [] [] [] [] [] [] (2 ^ 62)) = None).
Proof. split; [vm_compute; reflexivity|]. split; reflexivity. Qed.
Theorem C46_full_refuted : ~ C46_full.
Proof.
  intro F. destruct (F [] [] true None [] (2 ^ 62)) as (m & m' & gs & E & G & Gr); [vm_compute; reflexivity|vm_compute; reflexivity|].
  injection E as <-. destruct C46_huge_refuted as (G' & _). unfold NewMatcher in G'. rewrite G in G'. cbn [option_map snd] in G'. injection G' as ->.
  inversion Gr as [|i j t si sj ei ej g gs H1 H2 H3 H4 H5 H6 H7 H8]; subst. apply H8. reflexivity.
Qed.
Example C46_example : existsb isGrouped [CSetSeqs ten eleven] = false /\ asked 1 < 2 ^ 62 /\ lenZ eleven < 2 ^ 62 /\
  option_map (fun m => option_map snd (GetGroupedOpCodes m 1)) (performs (NewMatcher ex_a ex_b) [CSetSeqs ten eleven]) =
    Some (Some [[mkOp tag_e 9 10 9 10; mkOp tag_i 10 10 10 11]]).
Proof. repeat split. Qed.

(** * C47: unified diffs *)

(** The text of the hunks of some patch from A to B, each line as fmt.Sprintf shows it *)
Theorem C47_text : forall decimal other d, asked (Context d) < 2 ^ 62 -> lenZ (dA d) < 2 ^ 62 -> lenZ (dB d) < 2 ^ 62 ->
  exists hs, GetUnifiedDiffString decimal other d = Some (unified_text decimal (Sprintf other) d hs) /\
    patches (dA d) (dB d) 0 0 hs /\ Forall (hunk_ok (asked (Context d))) hs /\ (hs = [] <-> dA d = dB d).
Proof.
  intros decimal other d Hn La Lb. destruct (new_wf (dA d) (dB d) true None) as (W & F & A1 & A2 & _).
  destruct (grouped_of (NewMatcher (dA d) (dB d)) (Context d) W F Hn) as (m' & gs & m2 & codes & G & C & Gr & Ch).
  { unfold NewMatcher. now rewrite A1. } { unfold NewMatcher. now rewrite A2. }
  unfold NewMatcher in Gr. rewrite A1, A2 in Gr. fold (NewMatcher (dA d) (dB d)) in Gr.
  destruct (unifiedGroups_ok decimal other (dA d) (dB d) d eq_refl eq_refl _ _ _ _ _ Gr ltac:(lia) ltac:(lia)) as (P & K & l & E & X).
  exists (map (hunkOf (dA d) (dB d)) gs). split; [|split; [exact P|split; [exact K|]]].
  - unfold GetUnifiedDiffString, unifiedPieces. rewrite G. cbn [obind]. unfold unified_text. destruct gs as [|g gs]; [reflexivity|].
    rewrite E. cbn [obind]. change (map (hunkOf (dA d) (dB d)) (g :: gs)) with (hunkOf (dA d) (dB d) g :: map (hunkOf (dA d) (dB d)) gs) in *.
    cbv zeta iota. f_equal. rewrite concat_app, X. cbn [unifiedHeader List.concat]. rewrite eol_eq. fold (eol d).
    assert (Nm : forall f dt, f ++ dateOf dt = name_text f dt) by (intros f [|c dt]; reflexivity).
    rewrite <- !Nm, <- !app_assoc. cbn [app]. rewrite <- ?app_assoc. reflexivity.
  - destruct gs as [|g gs].
    + split; [|reflexivity]. intros _. inversion P as [i j H1 H2 H3|]; subst. now rewrite !part_all in H3.
    + split; [discriminate|]. intro Eq. exfalso. inversion Gr as [|i j t si sj ei ej g' gs' H1 H2 H3 H4 H5 H6 H7 H8]; subst.
      destruct (codes_same (NewMatcher (dA d) (dB d))) as (bl & B & Cs); [unfold NewMatcher; now rewrite A1, A2|].
      destruct (getCodes_ok _ W F) as (m3 & bl' & C' & B' & _). unfold NewMatcher in B. rewrite B in B'. injection B' as <-.
      unfold NewMatcher in C, Cs. rewrite C in C'. injection C' as _ ->. rewrite Cs in Ch. cbn [List.concat] in Ch.
      unfold changes in Ch at 1. rewrite filter_app in Ch. fold (changes g) in Ch. apply H8.
      destruct (changes g) as [|c r]; [reflexivity|]. destruct (0 <? _); discriminate Ch.
Qed.

Lemma unified_text_ext : forall decimal s s' d hs, (forall h l, In h hs -> In l (body h) -> s (snd l) = s' (snd l)) ->
  unified_text decimal s d hs = unified_text decimal s' d hs.
Proof.
  intros decimal s s' d hs H. unfold unified_text. destruct hs as [|h0 hs]; [reflexivity|]. do 6 f_equal. cbv zeta. f_equal.
  apply map_ext_in. intros h Hh. unfold hunk_text.
  assert (E : map (fun l => mark_text (fst l) ++ s (snd l)) (body h) = map (fun l => mark_text (fst l) ++ s' (snd l)) (body h)); [|now rewrite E].
  apply map_ext_in. intros l Hl. f_equal. now apply H with h.
Qed.
Lemma In_firstn : forall (A : Type) n (l : list A) x, In x (firstn n l) -> In x l.
Proof. intros A n. induction n as [|n IH]; intros [|y l] x H; cbn in H; try contradiction. destruct H as [H|H]; [now left|right; now apply IH]. Qed.
Lemma In_skipn : forall (A : Type) n (l : list A) x, In x (skipn n l) -> In x l.
Proof. intros A n. induction n as [|n IH]; intros [|y l] x H; cbn in H; try assumption. right. now apply IH. Qed.
Lemma part_In : forall l i j x, In x (part l i j) -> In x l.
Proof. intros l i j x H. unfold part in H. apply In_firstn in H. now apply In_skipn in H. Qed.
Lemma patches_lines : forall a b i j hs, patches a b i j hs -> forall h l, In h hs -> In l (body h) -> In (snd l) (a ++ b).
Proof.
  intros a b i j hs P. induction P as [|i j h hs _ _ _ P1 P2 _ IH]; intros h' l Hh Hl; [destruct Hh|].
  destruct Hh as [->|Hh]; [|now apply IH with h']. apply in_app_iff. destruct (fst l) eqn:E.
  - left. apply part_In with (oldStart h') (oldStart h' + lenZ (oldLines h')). rewrite P1. apply in_map. apply filter_In. now rewrite E.
  - left. apply part_In with (oldStart h') (oldStart h' + lenZ (oldLines h')). rewrite P1. apply in_map. apply filter_In. now rewrite E.
  - right. apply part_In with (newStart h') (newStart h' + lenZ (newLines h')). rewrite P2. apply in_map. apply filter_In. now rewrite E.
Qed.
(** Without a '%', verbatim *)
Theorem C47_verbatim_partial : forall decimal other d, asked (Context d) < 2 ^ 62 -> lenZ (dA d) < 2 ^ 62 -> lenZ (dB d) < 2 ^ 62 ->
  Forall no_percent (dA d ++ dB d) ->
  exists hs, GetUnifiedDiffString decimal other d = Some (unified_text decimal (fun l => l) d hs) /\
    patches (dA d) (dB d) 0 0 hs /\ Forall (hunk_ok (asked (Context d))) hs /\ (hs = [] <-> dA d = dB d).
Proof.
  intros decimal other d Hn La Lb N. destruct (C47_text decimal other d Hn La Lb) as (hs & E & P & K). exists hs.
  split; [|split; [exact P|exact K]]. rewrite E. f_equal. apply unified_text_ext. intros h l Hh Hl. apply sprintf_plain.
  rewrite Forall_forall in N. apply N. now apply (patches_lines _ _ _ _ _ P h).
Qed.
(** A line is shown as it is if and only if it has no '%' *)
Theorem C47_line : forall other l, plain l -> (Sprintf other l = l <-> no_percent l).
Proof.
  intros other l P. split.
  - intros E I. exact (sprintf_changes other l P I E).
  - apply sprintf_plain.
Qed.

Definition C47_full : Prop := forall decimal other d, asked (Context d) < 2 ^ 62 -> lenZ (dA d) < 2 ^ 62 -> lenZ (dB d) < 2 ^ 62 ->
  exists hs, GetUnifiedDiffString decimal other d = Some (unified_text decimal (fun l => l) d hs) /\ patches (dA d) (dB d) 0 0 hs.
Definition ex_percent : Diff := mkDiff [bs "%%" ++ [10]] (bs "f") [] [] (bs "g") [] [] 3.
Theorem C47_percent_refuted : forall other, GetUnifiedDiffString (fun _ => bs "n") other ex_percent =
  Some (bs "--- f" ++ [10] ++ bs "+++ g" ++ [10] ++ bs "@@ -n +n,n @@" ++ [10] ++ bs "-%" ++ [10]).
Proof. intro other. vm_compute. reflexivity. Qed.
Theorem C47_done_refuted : forall other, Sprintf other (bs "100% done") = bs "100%!d(MISSING)one".
Proof. reflexivity. Qed.
Lemma count_app : forall x l l', count_occ Z.eq_dec (l ++ l') x = (count_occ Z.eq_dec l x + count_occ Z.eq_dec l' x)%nat.
Proof. intros x l l'. induction l as [|y l IH]; [reflexivity|]. cbn [app count_occ]. destruct (Z.eq_dec y x); lia. Qed.
Lemma count_concat : forall x l s, In s l -> (count_occ Z.eq_dec s x <= count_occ Z.eq_dec (List.concat l) x)%nat.
Proof.
  intros x l s. induction l as [|t l IH]; intros H; [destruct H|]. cbn [List.concat]. rewrite count_app. destruct H as [->|H]; [lia|].
  specialize (IH H). lia.
Qed.
Lemma count_suffix : forall x l l', (count_occ Z.eq_dec l' x <= count_occ Z.eq_dec (l ++ l') x)%nat.
Proof. intros x l l'. rewrite count_app. lia. Qed.
Lemma patches_deleted : forall a b i j hs, patches a b i j hs -> b = [] -> 0 <= i < lenZ a -> 0 <= j -> exists h l, In h hs /\ In l (body h) /\ In (snd l) a.
Proof.
  intros a b i j hs P. induction P as [i j H1 H2 H3|i j h hs H1 H2 H3 H4 H5 P IH]; intros -> Hi Hj.
  - exfalso. rewrite (part_empty [] j) in H3 by (cbn; lia). pose proof (lenZ_part a i (lenZ a) ltac:(lia) ltac:(lia) ltac:(lia)) as L.
    rewrite H3 in L. cbn in L. lia.
  - destruct (oldLines h) as [|x r] eqn:E.
    + cbn in IH. rewrite Z.add_0_r in IH. destruct IH as (h' & l & I1 & I2 & I3); [reflexivity| | |exists h', l; split; [now right|auto]].
      * split; [lia|]. destruct (Z.eq_dec i (oldStart h)) as [<-|]; [lia|]. exfalso.
        assert (L : part [] j (newStart h) = []) by (destruct (part [] j (newStart h)) as [|y s] eqn:Ey; [reflexivity|];
          exfalso; assert (In y []) as [] by (apply part_In with j (newStart h); rewrite Ey; now left)).
        rewrite L in H3. destruct (Z_le_gt_dec (oldStart h) (lenZ a)) as [Le|Gt].
        -- pose proof (lenZ_part a i (oldStart h) ltac:(lia) ltac:(lia) Le) as L'. rewrite H3 in L'. cbn in L'. lia.
        -- assert (I : nthZ (part a i (oldStart h)) 0 = nthZ a i) by (rewrite nthZ_part by lia; now rewrite Z.add_0_r).
           rewrite H3 in I. destruct (nthZ_some _ a i ltac:(lia)) as [y Ey]. rewrite Ey in I. discriminate I.
      * pose proof (lenZ_nonneg _ (newLines h)). lia.
    + assert (Ix : In x (oldLines h)) by (rewrite E; now left). pose proof Ix as Ix'. unfold oldLines in Ix. apply in_map_iff in Ix.
      destruct Ix as (l & El & Il). apply filter_In in Il. exists h, l. split; [now left|]. split; [apply Il|]. rewrite El.
      apply part_In with (oldStart h) (oldStart h + lenZ (x :: r)). rewrite H4. now left.
Qed.
Theorem C47_full_refuted : ~ C47_full.
Proof.
  intro F. destruct (F (fun _ => bs "n") (fun s => s) ex_percent) as (hs & E & P); try (vm_compute; reflexivity).
  rewrite C47_percent_refuted in E.
  destruct (patches_deleted _ _ _ _ _ P eq_refl) as (h & l & Ih & Il & Ia); [cbn; lia|lia|].
  cbn [dA ex_percent In] in Ia. destruct Ia as [Ia|[]].
  assert (K : le 2%nat (count_occ Z.eq_dec (unified_text (fun _ => bs "n") (fun l => l) ex_percent hs) 37)).
  { apply Nat.le_trans with (count_occ Z.eq_dec (snd l) 37); [rewrite <- Ia; vm_compute; lia|].
    apply Nat.le_trans with (count_occ Z.eq_dec (hunk_text (fun _ => bs "n") (fun l => l) [10] h) 37).
    - unfold hunk_text. do 6 (eapply Nat.le_trans; [|apply count_suffix]).
      eapply Nat.le_trans; [|apply count_concat; apply (in_map (fun l => mark_text (fst l) ++ snd l)); exact Il]. apply count_suffix.
    - unfold unified_text. destruct hs as [|h0 hs]; [destruct Ih|]. cbv zeta. do 6 (eapply Nat.le_trans; [|apply count_suffix]).
      apply count_concat. apply (in_map (hunk_text (fun _ => bs "n") (fun l => l) [10])). exact Ih. }
  apply (f_equal (option_map (fun t => count_occ Z.eq_dec t 37))) in E. cbn [option_map] in E.
  assert (E1 : count_occ Z.eq_dec (unified_text (fun _ => bs "n") (fun l => l) ex_percent hs) 37 = 1%nat).
  { assert (S1 : forall x y : nat, Some x = Some y -> y = x) by (intros x y S1; now injection S1). apply S1 in E. rewrite E. vm_compute. reflexivity. }
  lia.
Qed.

Definition ex_diff : Diff := mkDiff (map (fun l => l ++ [10]) ten) (bs "from") (bs "now") (map (fun l => l ++ [10]) (bs "x" :: firstn 9 ten)) (bs "to") [] [] 1.
Example C47_example : asked (Context ex_diff) < 2 ^ 62 /\ lenZ (dA ex_diff) = 10 /\ lenZ (dB ex_diff) = 10 /\ Forall no_percent (dA ex_diff ++ dB ex_diff) /\
  GetUnifiedDiffString (fun n => [48 + n / 10; 48 + n mod 10]) (fun s => s) ex_diff =
  Some (bs "--- from" ++ [9] ++ bs "now" ++ [10] ++ bs "+++ to" ++ [10] ++ bs "@@ -01 +01,02 @@" ++ [10] ++ bs "+x" ++ [10] ++ bs " 0" ++ [10] ++
        bs "@@ -09,02 +10 @@" ++ [10] ++ bs " 8" ++ [10] ++ bs "-9" ++ [10]).
Proof.
  split; [reflexivity|]. split; [reflexivity|]. split; [reflexivity|]. split; [|vm_compute; reflexivity].
  apply Forall_forall. intros s H I. cbn in H. repeat (destruct H as [H|H]; [subst s; cbn in I; lia|]). destruct H.
Qed.
Example C47_line_example : plain (bs "100% done") /\ ~ no_percent (bs "100% done") /\ plain (bs "x") /\ no_percent (bs "x").
Proof.
  split; [|split; [|split]].
  - repeat (apply plain_char; [vm_compute; discriminate|]). apply (plain_verb (bs " ") (hd 0 (bs "d")) (bs "one")); [intros c C; vm_compute in C |- *; tauto|right; unfold letter; change (hd 0 (bs "d")) with 100; lia|].
    repeat (apply plain_char; [vm_compute; discriminate|]). apply plain_nil.
  - intro N. apply N. cbn. lia.
  - apply plain_char; [vm_compute; discriminate|apply plain_nil].
  - intro I. cbn in I. lia.
Qed.

(** * C61: WriteUnifiedDiff tells of errors *)

(** All that can happen.  The last bytes, at most 4096, can be lost without an error. *)
Theorem C61_written : forall W error (Write : W -> bytes -> W * option error) decimal other w d,
  asked (Context d) < 2 ^ 62 -> lenZ (dA d) < 2 ^ 62 -> lenZ (dB d) < 2 ^ 62 -> exists text w' e,
  GetUnifiedDiffString decimal other d = Some text /\ WriteUnifiedDiff W error Write decimal other w d = Some (w', e) /\
  match e with
  | Some e => exists q t r w1, text = q ++ t ++ r /\ sent W error Write w q w1 /\ Write w1 t = (w', Some e)
  | None => sent W error Write w text w' \/
            exists q t w1 e, text = q ++ t /\ lenZ t <= 4096 /\ sent W error Write w q w1 /\ Write w1 t = (w', Some e)
  end.
Proof.
  intros W error Write decimal other w d Hn La Lb. destruct (C47_text decimal other d Hn La Lb) as (hs & E & _). unfold GetUnifiedDiffString in E.
  destruct (unifiedPieces decimal other d) as [l|] eqn:Ep; [|discriminate]. unfold GetUnifiedDiffString, WriteUnifiedDiff. rewrite Ep. cbn [obind].
  assert (H0 : holds W error Write w [] (mkBufio W error [] None w)).
  { split; [apply Nat.le_0_l|]. cbn [bufErr]. exists []. split; [reflexivity|apply sent_nil]. }
  destruct (pieces_ok W error Write l w [] _ H0 eq_refl) as (s1 & s2 & Ec & H & Ee & N). cbn [app] in H.
  destruct (writePieces W error Write (mkBufio W error [] None w) l) as [b e]. cbn [fst snd] in *.
  exists (List.concat l), (under W error (Flush W error Write b)), e. split; [reflexivity|]. split; [reflexivity|]. destruct e as [e|].
  - destruct H as [_ H]. rewrite Ee in H. destruct H as (q & t & r & w1 & Eq & Hs & Hw). exists q, t, (r ++ s2), w1. rewrite Ec, Eq.
    split; [now rewrite <- !app_assoc|]. split; [exact Hs|]. unfold Flush. rewrite Ee. exact Hw.
  - rewrite (N eq_refl), app_nil_r in Ec. subst s1. destruct H as [Hl H]. rewrite Ee in H. destruct H as (q & Eq & Hs). unfold Flush. rewrite Ee.
    destruct (buffered W error b) as [|c t] eqn:Eb.
    + left. rewrite Eq, app_nil_r. exact Hs.
    + destruct (Write (under W error b) (c :: t)) as [w' [e|]] eqn:Ew; cbn [under].
      * right. exists q, (c :: t), (under W error b), e. split; [exact Eq|]. split; [unfold lenZ; pose proof bufSize_val; lia|]. auto.
      * left. rewrite Eq. eapply sent_one; eassumption.
Qed.
(** A text of at most 4096 bytes is one write, whose error nobody sees *)
Theorem C61_short_refuted : forall W error (Write : W -> bytes -> W * option error) decimal other w d text,
  GetUnifiedDiffString decimal other d = Some text -> 0 < lenZ text <= 4096 ->
  WriteUnifiedDiff W error Write decimal other w d = Some (fst (Write w text), None).
Proof.
  intros W error Write decimal other w d text E L. unfold GetUnifiedDiffString, WriteUnifiedDiff in *.
  destruct (unifiedPieces decimal other d) as [l|]; [|discriminate]. cbn [obind] in *. assert (Et : List.concat l = text) by congruence. clear E.
  rewrite short_pieces by (rewrite Et; unfold lenZ in L; pose proof bufSize_val; cbn [List.length]; lia). rewrite Et. cbn [app].
  unfold Flush. cbn [bufErr buffered under]. destruct text as [|c t]; [cbn in L; lia|]. destruct (Write w (c :: t)) as [w' [e|]]; reflexivity.
Qed.
Definition C61_full : Prop := forall W error (Write : W -> bytes -> W * option error) decimal other w d w' text,
  asked (Context d) < 2 ^ 62 -> lenZ (dA d) < 2 ^ 62 -> lenZ (dB d) < 2 ^ 62 -> GetUnifiedDiffString decimal other d = Some text ->
  WriteUnifiedDiff W error Write decimal other w d = Some (w', None) -> sent W error Write w text w'.
Theorem C61_full_refuted : ~ C61_full.
Proof.
  intro F. assert (E := C61_short_refuted unit unit (fun _ _ => (tt, Some tt)) (fun _ => bs "n") (fun s => s) tt ex_diff).
  assert (exists text, GetUnifiedDiffString (fun _ => bs "n") (fun s => s) ex_diff = Some text /\ 0 < lenZ text <= 4096) as (text & Et & L).
  { eexists. split; [vm_compute; reflexivity|]. vm_compute. split; [reflexivity|discriminate]. }
  specialize (E text Et L). cbn [fst] in E. apply (F _ _ _ _ _ _ _ _ text) in E; try (vm_compute; reflexivity); [|exact Et].
  assert (X : forall w t w', sent unit unit (fun _ _ => (tt, Some tt)) w t w' -> t = []) by (intros w t w' H; induction H; [reflexivity|discriminate]).
  apply X in E. rewrite E in L. cbn in L. lia.
Qed.
(** A writer that takes everything gets the text, in writes of at most 4096 bytes *)
Definition ex_collect (w : list bytes) (t : bytes) : list bytes * option unit := (w ++ [t], None).
Example C61_example : GetUnifiedDiffString (fun _ => bs "n") (fun s => s) ex_percent <> None /\
  WriteUnifiedDiff (list bytes) unit ex_collect (fun _ => bs "n") (fun s => s) [] ex_percent =
    Some ([bs "--- f" ++ [10] ++ bs "+++ g" ++ [10] ++ bs "@@ -n +n,n @@" ++ [10] ++ bs "-%" ++ [10]], None) /\
  WriteUnifiedDiff (list bytes) unit (fun w _ => (w, Some tt)) (fun _ => bs "n") (fun s => s) [] ex_percent = Some ([], None).
Proof. split; [vm_compute; discriminate|]. split; vm_compute; reflexivity. Qed.

(** * C62: context diffs *)
Theorem C62_text : forall decimal other d, asked (Context d) < 2 ^ 62 -> lenZ (dA d) < 2 ^ 62 -> lenZ (dB d) < 2 ^ 62 ->
  exists gs, GetContextDiffString decimal other d = Some (context_text decimal (Sprintf other) (dA d) (dB d) d gs) /\
    grouped (asked (Context d)) (dA d) (dB d) 0 0 (asked (Context d)) gs /\
    option_map snd (GetGroupedOpCodes (NewMatcher (dA d) (dB d)) (Context d)) = Some gs.
Proof.
  intros decimal other d Hn La Lb. destruct (new_wf (dA d) (dB d) true None) as (W & F & A1 & A2 & _).
  destruct (grouped_of (NewMatcher (dA d) (dB d)) (Context d) W F Hn) as (m' & gs & m2 & codes & G & C & Gr & Ch).
  { unfold NewMatcher. now rewrite A1. } { unfold NewMatcher. now rewrite A2. }
  unfold NewMatcher in Gr. rewrite A1, A2 in Gr. fold (NewMatcher (dA d) (dB d)) in Gr.
  destruct (contextGroups_ok decimal other (dA d) (dB d) d eq_refl eq_refl _ _ _ _ _ Gr ltac:(lia) ltac:(lia)) as (l & E & X).
  exists gs. split; [|split; [exact Gr|now rewrite G]].
  unfold GetContextDiffString, contextPieces. rewrite G. cbn [obind]. unfold context_text. destruct gs as [|g gs]; [reflexivity|].
  rewrite E. cbn [obind]. cbv zeta iota. f_equal. rewrite concat_app, X. cbn [contextHeader List.concat]. rewrite eol_eq. fold (eol d).
  assert (Nm : forall f dt, f ++ dateOf dt = name_text f dt) by (intros f [|c dt]; reflexivity).
  rewrite <- !Nm, <- !app_assoc. cbn [app]. rewrite <- ?app_assoc. reflexivity.
Qed.
(** The sides of the groups are the lines of a and of b *)
Theorem C62_sides : forall n a b i j t gs, grouped n a b i j t gs -> 0 <= i -> 0 <= j ->
  Forall (fun g => exists si sj ei ej, map snd (oldSide a g) = part a si ei /\ map snd (newSide b g) = part b sj ej /\
    match g with [] => False | c :: _ => I1 c = si /\ J1 c = sj end /\ 0 <= si <= ei /\ ei <= lenZ a /\ 0 <= sj <= ej /\ ej <= lenZ b) gs.
Proof.
  intros n a b i j t gs G. induction G as [|i j t si sj ei ej g gs H1 H2 P L T F A C Ld Tl _ G IH]; intros Hi Hj; [constructor|].
  destruct (tiles0_le _ _ _ _ _ _ _ F T) as [L1 L2]. destruct (grouped_bounds _ _ _ _ _ _ _ G) as [B1 B2]. constructor; [|apply IH; lia].
  exists si, sj, ei, ej. destruct (sides a b g si sj ei ej F T ltac:(lia) ltac:(lia)) as [S1 S2]. split; [exact S1|]. split; [exact S2|].
  split; [|lia]. destruct g as [|c g]; [now apply C|]. now apply tiles_first in T.
Qed.
Lemma context_text_ext : forall decimal s s' a b d gs, s (eol d) = s' (eol d) -> (forall l, In l (a ++ b) -> s l = s' l) ->
  context_text decimal s a b d gs = context_text decimal s' a b d gs.
Proof.
  intros decimal s s' a b d gs E0 H. unfold context_text. destruct gs as [|g0 gs]; [reflexivity|]. cbv zeta. fold (eol d).
  assert (Y : map (section_text decimal s a b (eol d)) (g0 :: gs) = map (section_text decimal s' a b (eol d)) (g0 :: gs)); [|do 6 f_equal; exact (f_equal (@List.concat Z) Y)].
  apply map_ext. intro g. unfold section_text. destruct g as [|c g]; [reflexivity|]. rewrite E0.
  assert (X : forall l, (forall x, In x l -> In (snd x) (a ++ b)) -> side_text s l = side_text s' l).
  { intros l Hl. unfold side_text. destruct (forallb _ l); [reflexivity|]. f_equal. apply map_ext_in. intros x Hx. f_equal. apply H. now apply Hl. }
  rewrite (X (oldSide a (c :: g))), (X (newSide b (c :: g))); [reflexivity| |].
  - intros x Hx. unfold newSide in Hx. apply in_concat in Hx. destruct Hx as (y & Hy & Hx). apply in_map_iff in Hy. destruct Hy as (k & <- & _).
    apply in_map_iff in Hx. destruct Hx as (z & <- & Hz). cbn [snd]. apply in_app_iff. right. now apply part_In in Hz.
  - intros x Hx. unfold oldSide in Hx. apply in_concat in Hx. destruct Hx as (y & Hy & Hx). apply in_map_iff in Hy. destruct Hy as (k & <- & _).
    apply in_map_iff in Hx. destruct Hx as (z & <- & Hz). cbn [snd]. apply in_app_iff. left. now apply part_In in Hz.
Qed.
Theorem C62_verbatim_partial : forall decimal other d, asked (Context d) < 2 ^ 62 -> lenZ (dA d) < 2 ^ 62 -> lenZ (dB d) < 2 ^ 62 ->
  Forall no_percent (Eol d :: dA d ++ dB d) ->
  exists gs, GetContextDiffString decimal other d = Some (context_text decimal (fun l => l) (dA d) (dB d) d gs) /\
    grouped (asked (Context d)) (dA d) (dB d) 0 0 (asked (Context d)) gs.
Proof.
  intros decimal other d Hn La Lb N. destruct (C62_text decimal other d Hn La Lb) as (gs & E & G & _). exists gs. split; [|exact G]. rewrite E. f_equal.
  inversion N as [|? ? N1 N2]; subst. apply context_text_ext.
  - apply sprintf_plain. unfold eol. destruct (streq (Eol d) []); [intros [I|[]]; discriminate I|exact N1].
  - intros l Hl. apply sprintf_plain. rewrite Forall_forall in N2. now apply N2.
Qed.
Theorem C62_percent_refuted : forall other, GetContextDiffString (fun _ => bs "n") other ex_percent =
  Some (bs "*** f" ++ [10] ++ bs "--- g" ++ [10] ++ bs "***************" ++ [10] ++ bs "*** n ****" ++ [10] ++ bs "- %" ++ [10] ++ bs "--- n ----" ++ [10]).
Proof. intro other. vm_compute. reflexivity. Qed.
Example C62_example : asked (Context ex_diff) < 2 ^ 62 /\ lenZ (dA ex_diff) < 2 ^ 62 /\ lenZ (dB ex_diff) < 2 ^ 62 /\
  Forall no_percent (Eol ex_diff :: dA ex_diff ++ dB ex_diff) /\
  GetContextDiffString (fun n => [48 + n / 10; 48 + n mod 10]) (fun s => s) ex_diff =
  Some (bs "*** from" ++ [9] ++ bs "now" ++ [10] ++ bs "--- to" ++ [10] ++
        bs "***************" ++ [10] ++ bs "*** 01 ****" ++ [10] ++ bs "--- 01,02 ----" ++ [10] ++ bs "+ x" ++ [10] ++ bs "  0" ++ [10] ++
        bs "***************" ++ [10] ++ bs "*** 09,10 ****" ++ [10] ++ bs "  8" ++ [10] ++ bs "- 9" ++ [10] ++ bs "--- 10 ----" ++ [10]).
Proof.
  split; [reflexivity|]. split; [reflexivity|]. split; [reflexivity|]. split; [|vm_compute; reflexivity].
  constructor; [intros []|]. apply C47_example.
Qed.
Example C62_sides_example : exists gs, option_map snd (GetGroupedOpCodes (NewMatcher ten eleven) 1) = Some gs /\ gs <> [] /\ grouped 1 ten eleven 0 0 1 gs.
Proof.
  destruct (C62_text (fun _ => []) (fun s => s) (mkDiff ten [] [] eleven [] [] [] 1)) as (gs & _ & G & E); try (vm_compute; reflexivity).
  exists gs. split; [exact E|]. split; [|exact G]. vm_compute in E. congruence.
Qed.

(** * C63: lines *)
(** The lines of s and one more end of line: each line with its end, and that is the only such list *)
Theorem C63_lines : forall s, List.concat (SplitLines s) = s ++ [10] /\ Forall ended (SplitLines s) /\
  forall l, Forall ended l -> List.concat l = s ++ [10] -> l = SplitLines s.
Proof.
  intro s. assert (E : List.concat (SplitLines s) = s ++ [10]) by exact (splitLines_concat s []).
  assert (F : Forall ended (SplitLines s)) by (apply splitLines_ended; intros []). split; [exact E|]. split; [exact F|].
  intros l Fl El. apply ended_unique; [exact Fl|exact F|congruence].
Qed.
(** So never the text itself, and a text that ends with a line end gets one empty line more *)
Definition C63_full : Prop := forall s, List.concat (SplitLines s) = s.
Theorem C63_extra_refuted : SplitLines (bs "a" ++ [10]) = [bs "a" ++ [10]; [10]] /\ SplitLines [] = [[10]].
Proof. split; reflexivity. Qed.
Theorem C63_full_refuted : ~ C63_full.
Proof. intro F. specialize (F []). discriminate F. Qed.
Example C63_example : SplitLines (bs "a" ++ [10; 10] ++ bs "b") = [bs "a" ++ [10]; [10]; bs "b" ++ [10]].
Proof. reflexivity. Qed.
Print Assumptions C44_blocks.
Print Assumptions C44_method.
Print Assumptions C44_best.
Print Assumptions C44_first.
Print Assumptions C44_popular_refuted.
Print Assumptions C44_full_refuted.
Print Assumptions C45_codes.
Print Assumptions C45_same.
Print Assumptions C45_after_grouped_refuted.
Print Assumptions C45_full_refuted.
Print Assumptions C46_changes.
Print Assumptions C46_groups.
Print Assumptions C46_again.
Print Assumptions C46_later_refuted.
Print Assumptions C46_huge_refuted.
Print Assumptions C46_full_refuted.
Print Assumptions C47_text.
Print Assumptions C47_verbatim_partial.
Print Assumptions C47_line.
Print Assumptions C47_percent_refuted.
Print Assumptions C47_done_refuted.
Print Assumptions C47_full_refuted.
Print Assumptions C61_written.
Print Assumptions C61_short_refuted.
Print Assumptions C61_full_refuted.
Print Assumptions C62_text.
Print Assumptions C62_sides.
Print Assumptions C62_verbatim_partial.
Print Assumptions C62_percent_refuted.
Print Assumptions C63_lines.
Print Assumptions C63_extra_refuted.
Print Assumptions C63_full_refuted.

(** ** The letters of the tags *)
Theorem C45_tags : [tag_e; tag_r; tag_d; tag_i] = bs "erdi".
Proof. reflexivity. Qed.
Print Assumptions C45_tags.
