From Verif Require Import Base SpewModel SpewSpec.
Open Scope Z_scope.
Open Scope list_scope.
From Coq Require Import Permutation Lia.

(** ** printHexPtr *)
Lemma hexDigit_value n : 0 <= n < 16 -> hexValue (hexDigit n) = Some n.
Proof.
  intros Hn. assert (n = 0 \/ n = 1 \/ n = 2 \/ n = 3 \/ n = 4 \/ n = 5 \/ n = 6 \/ n = 7 \/ n = 8 \/ n = 9 \/ n = 10 \/ n = 11 \/ n = 12 \/ n = 13 \/ n = 14 \/ n = 15) as D by lia.
  repeat (destruct D as [->|D]; [reflexivity|]). subst; reflexivity.
Qed.
Lemma hexDigit_nonzero n : 0 < n < 16 -> hexDigit n <> 48.
Proof. intros Hn E. pose proof (hexDigit_value n ltac:(lia)) as V. rewrite E in V. cbn in V. injection V. lia. Qed.
Lemma setByte_in i c r : 0 <= i < 18 -> setByte i c r = Some (c :: r).
Proof. intros Hi. unfold setByte. destruct ((0 <=? i) && (i <? 18)) eqn:B; [reflexivity|exfalso; lia]. Qed.
(** What the loop has done: the digits of the number so far, with room for two more bytes *)
Lemma hexLoop_spec : forall k fuel num i rest, 0 < num < 16 ^ (Z.of_nat k + 1) -> (k < fuel)%nat -> Z.of_nat k + 2 <= i < 18 ->
  exists top i' rest', hexLoop fuel num i rest = Some (top, i', rest') /\ 0 < top < 16 /\ 2 <= i' < 18 /\
    exists ds, rest' = ds ++ rest /\ hex_number (hexDigit top :: ds) num.
Proof.
  induction k as [|k IH]; intros fuel num i rest Hn Hf Hi; (destruct fuel as [|fuel]; [lia|]).
  - cbn [hexLoop]. change (16 ^ (Z.of_nat 0 + 1)) with 16 in Hn. destruct (num >=? 16) eqn:E; [lia|]. exists num, i, rest. repeat split; try lia.
    exists []. split; [reflexivity|]. exact (hex_snoc [] 0 (hexDigit num) num hex_none (hexDigit_value num ltac:(lia))).
  - cbn [hexLoop]. destruct (num >=? 16) eqn:E.
    + unfold setByte. destruct ((0 <=? i) && (i <? 18)) eqn:B; [|exfalso; lia]. cbn.
      assert (0 < num / 16 < 16 ^ (Z.of_nat k + 1)).
      { split; [apply Z.div_str_pos; lia|]. apply Z.div_lt_upper_bound; [lia|]. replace (Z.of_nat (S k) + 1) with (Z.of_nat k + 1 + 1) in Hn by lia.
        rewrite Z.pow_add_r in Hn by lia. change (16 ^ 1) with 16 in Hn. lia. }
      destruct (IH fuel (num / 16) (i - 1) (hexDigit (num mod 16) :: rest)) as (top & i' & rest' & E1 & T & I' & ds & E2 & N); try lia.
      exists top, i', rest'. split; [exact E1|]. split; [exact T|]. split; [exact I'|]. exists (ds ++ [hexDigit (num mod 16)]).
      split; [rewrite E2, <- app_assoc; reflexivity|]. pose proof (hex_snoc (hexDigit top :: ds) (num / 16) (hexDigit (num mod 16)) (num mod 16) N (hexDigit_value _ (Z.mod_pos_bound num 16 ltac:(lia)))) as X.
      rewrite <- Z.div_mod in X by lia. exact X.
    + exists num, i, rest. repeat split; try lia. exists []. split; [reflexivity|]. exact (hex_snoc [] 0 (hexDigit num) num hex_none (hexDigit_value num ltac:(lia))).
Qed.
Lemma printHexPtr_spec p : 0 <= p < 2 ^ 64 -> exists t, printHexPtr p = Some t /\ address_text p t /\ (List.length t <= 18)%nat.
Proof.
  intros Hp. unfold printHexPtr. destruct (p =? 0) eqn:E.
  - assert (p = 0) by lia. subst. exists (bs "<nil>"). split; [reflexivity|]. split; [left; auto|cbn; lia].
  - destruct (hexLoop_spec 15 64 p 17 []) as (top & i' & rest' & E1 & T & I' & ds & E2 & N); try lia.
    rewrite E1. rewrite app_nil_r in E2. subst rest'. cbn [obind].
    rewrite setByte_in by lia. cbn [obind]. rewrite setByte_in by lia. cbn [obind]. rewrite setByte_in by lia.
    eexists; split; [reflexivity|]. split.
    + right. split; [lia|]. exists (hexDigit top), ds. split; [reflexivity|]. split; [apply hexDigit_nonzero; lia|exact N].
    + assert (L : forall f n i r o, hexLoop f n i r = Some o -> Z.of_nat (List.length (snd o)) + snd (fst o) = Z.of_nat (List.length r) + i).
      { clear. induction f as [|f IH]; intros n i r o H; [discriminate|]. cbn [hexLoop] in H. destruct (n >=? 16).
        - unfold setByte in H. destruct ((0 <=? i) && (i <? 18)); [|discriminate]. cbn in H. apply IH in H. cbn [List.length] in H. lia.
        - injection H as <-. cbn. lia. }
      apply L in E1. cbn [fst snd List.length] in E1 |- *. lia.
Qed.
Lemma hexText_spec p : 0 <= p < 2 ^ 64 -> address_text p (hexText p).
Proof. intros Hp. destruct (printHexPtr_spec p Hp) as (t & E & A & _). unfold hexText. rewrite E. exact A. Qed.
Lemma hex_number_det ds : forall n m, hex_number ds n -> hex_number ds m -> n = m.
Proof.
  induction ds as [|c ds IH] using rev_ind; intros n m Hn Hm.
  - inversion Hn; [|destruct ds; discriminate]. inversion Hm; [reflexivity|destruct ds; discriminate].
  - inversion Hn as [X|ds1 n1 c1 v1 N1 V1 X]; [destruct ds; discriminate|]. inversion Hm as [Y|ds2 n2 c2 v2 N2 V2 Y]; [destruct ds; discriminate|].
    apply app_inj_tail in X, Y. destruct X as [-> ->], Y as [-> ->]. rewrite V1 in V2. injection V2 as ->. rewrite (IH _ _ N1 N2). reflexivity.
Qed.
Lemma address_text_inj p q t : address_text p t -> address_text q t -> p = q.
Proof.
  intros [[-> ->]|(Hp & c & ds & -> & Hc & N)] [[-> E]|(Hq & c' & ds' & E & Hc' & N')]; try reflexivity; try discriminate.
  injection E as <- <-. eapply hex_number_det; eauto.
Qed.

(** ** The map of pointers *)
Lemma above_spec d a m : above d a m = true <-> exists k, (k < d)%nat /\ In (a, k) m.
Proof.
  unfold above. rewrite existsb_exists. split.
  - intros ((b & k) & I & E). cbn [fst snd] in E. apply andb_true_iff in E. destruct E as [E1 E2]. apply Z.eqb_eq in E1. apply Nat.ltb_lt in E2. subst. eauto.
  - intros (k & L & I). exists (a, k). split; [exact I|]. cbn [fst snd]. rewrite Z.eqb_refl. apply Nat.ltb_lt in L. rewrite L. reflexivity.
Qed.
Lemma In_forget d a k m : In (a, k) (forget d m) <-> In (a, k) m /\ (k < d)%nat.
Proof.
  unfold forget. rewrite filter_In. cbn [fst snd]. split; intros [I L]; (split; [exact I|]).
  - apply negb_true_iff, Nat.leb_gt in L. exact L.
  - apply negb_true_iff, Nat.leb_gt. exact L.
Qed.
Lemma In_put d a b k m : In (b, k) (put d a m) <-> (b = a /\ k = d) \/ (b <> a /\ In (b, k) m).
Proof.
  unfold put. cbn [In]. rewrite filter_In. cbn [fst snd]. split.
  - intros [E|[I N]]; [injection E; auto|]. right. split; [|exact I]. apply negb_true_iff, Z.eqb_neq in N. exact N.
  - intros [[-> ->]|[N I]]; [auto|]. right. split; [exact I|]. apply negb_true_iff, Z.eqb_neq. exact N.
Qed.
Definition repr (m : ptrs) (hist : list event) : Prop := forall a k, In (a, k) m <-> live hist a k.
Lemma live_visit hist d a k : live (EVisit d :: hist) a k <-> live hist a k /\ (k < d)%nat.
Proof.
  split.
  - intros (l1 & l2 & E & F). destruct l1 as [|e l1]; [discriminate|]. injection E as <- ->. split; [|apply F; left; reflexivity].
    exists l1, l2. split; [reflexivity|]. intros j Hj. apply F. right. exact Hj.
  - intros ((l1 & l2 & -> & F) & L). exists (EVisit d :: l1), l2. split; [reflexivity|]. intros j [E|Hj]; [injection E as ->; exact L|auto].
Qed.
Lemma live_addr hist d b a k : live (EAddr b d :: hist) a k <-> (a = b /\ k = d) \/ live hist a k.
Proof.
  split.
  - intros (l1 & l2 & E & F). destruct l1 as [|e l1]; [injection E as -> -> ->; auto|]. injection E as <- ->. right.
    exists l1, l2. split; [reflexivity|]. intros j Hj. apply F. right. exact Hj.
  - intros [[-> ->]|(l1 & l2 & -> & F)]; [exists [], hist; split; [reflexivity|intros j []]|].
    exists (EAddr b d :: l1), l2. split; [reflexivity|]. intros j [E|Hj]; [discriminate|auto].
Qed.
Lemma repr_forget m hist d : repr m hist -> repr (forget d m) (EVisit d :: hist).
Proof. intros R a k. rewrite In_forget, live_visit, (R a k). reflexivity. Qed.
Lemma repr_put m hist d b : repr m hist -> (forall a k, In (a, k) m -> (k <= d)%nat) -> above d b m = false -> repr (put d b m) (EAddr b d :: hist).
Proof.
  intros R B F a k. rewrite In_put, live_addr, <- (R a k). split; [tauto|]. intros [E|I]; [auto|]. destruct (Z.eq_dec a b) as [->|N]; [|auto].
  left. split; [reflexivity|]. pose proof (B _ _ I). destruct (Nat.eq_dec k d); [assumption|]. exfalso.
  assert (above d b m = true) by (apply above_spec; exists k; split; [lia|exact I]). congruence.
Qed.
Lemma repr_above m hist d a : repr m hist -> (above d a m = true <-> shown hist d a).
Proof. intros R. rewrite above_spec. unfold shown. split; intros (k & L & I); exists k; (split; [exact L|]); apply R; exact I. Qed.

(** ** The chain of pointers *)
Definition endOf (c : chased) : chainEnd := if cNil c then CNil (typeText (cVe c)) else if cCycle c then CShown (typeText (cVe c)) else CValue (cVe c).
Lemma chase_chain h d : forall fuel m hist v i l0 c, repr m hist -> (forall a k, In (a, k) m -> (k <= d)%nat) -> chase h fuel d m v i l0 = Some c ->
  exists l hist', chain h d hist v l (endOf c) hist' /\ cChain c = l0 ++ l /\ repr (cPtrs c) hist' /\
    cInd c = (i + match endOf c with CShown _ => pred (List.length l) | _ => List.length l end)%nat.
Proof.
  induction fuel as [|fuel IH]; intros m hist v i l0 c R B E; [discriminate|]. cbn [chase] in E.
  assert (V : isPtr v = false -> Some {| cVe := v; cNil := false; cCycle := false; cInd := i; cChain := l0; cPtrs := m |} = Some c ->
    exists l hist', chain h d hist v l (endOf c) hist' /\ cChain c = l0 ++ l /\ repr (cPtrs c) hist' /\
    cInd c = (i + match endOf c with CShown _ => pred (List.length l) | _ => List.length l end)%nat).
  { intros P X. injection X as <-. cbn. exists [], hist. rewrite app_nil_r. repeat split; auto; try (intros; apply R; auto). constructor; exact P. }
  destruct v as [ty k|ty [[a x]|]|ty w|ty l|ty k s|ty k b|ty x|ty fs]; try (apply V; [reflexivity|exact E]).
  - destruct (above d a m) eqn:A.
    + injection E as <-. cbn. exists [a], hist. split; [apply ch_shown, (repr_above _ _ _ _ R), A|]. split; [reflexivity|]. split; [exact R|]. cbn. lia.
    + assert (NS : ~ shown hist d a) by (rewrite <- (repr_above _ _ _ _ R), A; discriminate).
      pose proof (repr_put _ _ _ _ R B A) as R'.
      assert (B' : forall b k, In (b, k) (put d a m) -> (k <= d)%nat) by (intros b k I; apply In_put in I; destruct I as [[_ ->]|[_ I]]; [lia|eauto]).
      destruct (isNilIface (cell h x)) eqn:Nl.
      * destruct (cell h x) as [| |ty' [w|]| | | | |] eqn:Cx; try discriminate. injection E as <-. cbn. exists [a], (EAddr a d :: hist).
        split; [eapply ch_niliface; eauto|]. split; [reflexivity|]. split; [exact R'|]. cbn. lia.
      * assert (E' : chase h fuel d (put d a m) (unpackValue (cell h x)) (S i) (l0 ++ [a]) = Some c)
          by (destruct (cell h x) as [| |ty' [w|]| | | | |]; try exact E; discriminate).
        destruct (IH _ _ _ _ _ _ R' B' E') as (l & hist' & C & L & R2 & N). exists (a :: l), hist'.
        split; [apply ch_more; auto|]. split; [rewrite L, <- app_assoc; reflexivity|]. split; [exact R2|]. rewrite N.
        destruct (endOf c) eqn:Ec; cbn [List.length]; try lia.
        assert (l <> []) by (inversion C; discriminate). destruct l; [congruence|]. cbn. lia.
  - injection E as <-. cbn. exists [], hist. rewrite app_nil_r. split; [constructor|]. split; [reflexivity|]. split; [exact R|]. cbn. lia.
Qed.
Lemma chase_end_value h d : forall fuel m v i l0 c, chase h fuel d m v i l0 = Some c -> cNil c = false -> cCycle c = false -> isPtr (cVe c) = false.
Proof.
  induction fuel as [|fuel IH]; intros m v i l0 c E N C; [discriminate|]. cbn [chase] in E.
  destruct v as [ty k|ty [[a x]|]|ty w|ty l|ty k s|ty k b|ty x|ty fs]; try (injection E as <-; reflexivity).
  - destruct (above d a m); [injection E as <-; discriminate|].
    destruct (cell h x) as [| |ty' [w|]| | | | |]; try (eapply IH; eauto; fail). injection E as <-. discriminate.
  - injection E as <-. discriminate.
Qed.

(** ** Texts *)
Lemma repeatBytes_ind cs d : repeatBytes (Indent cs) d = ind cs d.
Proof. unfold ind. induction d as [|d IH]; cbn; [reflexivity|]. rewrite IH. reflexivity. Qed.
Lemma repeatBytes_stars n : repeatBytes (bs "*") n = repeat 42 n.
Proof. induction n as [|n IH]; cbn; [reflexivity|]. cbn in IH. rewrite IH. reflexivity. Qed.
Lemma chainText_arrows l : chainText l = arrows (map hexText l).
Proof. induction l as [|a [|b l] IH]; [reflexivity|reflexivity|]. cbn [chainText map arrows] in *. rewrite IH. reflexivity. Qed.
Lemma lengthText_spec decimal cs h v : lengthText decimal cs h v = sizeText decimal cs (fst (sizes h v)) (snd (sizes h v)).
Proof.
  unfold lengthText. assert (E : lengths h v = sizes h v) by (destruct v as [? []| | | |? ? []| |? []|]; reflexivity). rewrite E. destruct (sizes h v) as [l c]. cbn [fst snd].
  unfold sizeText. destruct (l =? 0), (DisableCapacities cs), (c =? 0); cbn [negb orb andb app]; try reflexivity; cbn [joinSpace]; rewrite ?app_nil_r; try reflexivity;
    rewrite <- ?app_assoc; reflexivity.
Qed.
Lemma trimRight_all cut t u : (forall c, In c u -> In c cut) -> trimRight cut (t ++ u) = trimRight cut t.
Proof.
  intros F. unfold trimRight. rewrite rev_app_distr. f_equal. assert (F' : forall c, In c (rev u) -> In c cut) by (intros c I; apply F; apply in_rev; exact I).
  revert F'. generalize (rev u). clear. intros b. induction b as [|c b IH]; intros F; [reflexivity|]. cbn [app].
  replace (existsb (Z.eqb c) cut) with true; [apply IH; intros; apply F; right; assumption|]. symmetry. apply existsb_exists. exists c. split; [apply F; left; reflexivity|apply Z.eqb_refl].
Qed.
Lemma trimRight_stop cut t c : ~ In c cut -> trimRight cut (t ++ [c]) = t ++ [c].
Proof.
  intros N. unfold trimRight. rewrite rev_app_distr. cbn [rev app]. replace (existsb (Z.eqb c) cut) with false; [cbn [rev]; rewrite rev_involutive; reflexivity|].
  symmetry. apply not_true_is_false. intros E. apply existsb_exists in E. destruct E as (x & I & E). apply Z.eqb_eq in E. subst. auto.
Qed.
Lemma ind_in cs d c : In c (ind cs d) -> In c (Indent cs).
Proof. unfold ind. induction d as [|d IH]; cbn; [intros []|]. intros I. apply in_app_or in I. destruct I; auto. Qed.
Lemma replaceNewlines_app i s t : replaceNewlines i (s ++ t) = replaceNewlines i s ++ replaceNewlines i t.
Proof. apply flat_map_app. Qed.
Lemma replaceNewlines_none i s : ~ In 10 s -> replaceNewlines i s = s.
Proof.
  unfold replaceNewlines. induction s as [|c s IH]; intros N; [reflexivity|]. cbn [flat_map]. replace (c =? 10) with false by (symmetry; apply Z.eqb_neq; intros ->; apply N; left; reflexivity).
  cbn [app]. f_equal. apply IH. intros I. apply N. right. exact I.
Qed.
Lemma hexdumpText_spec hexDump hexRows cs d b : ~ In 10 (Indent cs) -> hexDump b = flat_map (fun row => row ++ [10]) (hexRows b) -> (forall row, In row (hexRows b) -> ~ In 10 row) ->
  hexdumpText hexDump cs d b = hexLines hexRows cs d b.
Proof.
  intros NI E NR. unfold hexdumpText, hexLines. rewrite repeatBytes_ind, E. clear E.
  assert (NI' : ~ In 10 (ind cs d)) by (intros I; apply ind_in in I; auto).
  assert (G : replaceNewlines (ind cs d) (ind cs d ++ flat_map (fun row => row ++ [10]) (hexRows b)) = flat_map (fun row => ind cs d ++ row ++ [10]) (hexRows b) ++ ind cs d).
  { rewrite replaceNewlines_app, (replaceNewlines_none _ (ind cs d)) by exact NI'. revert NR. generalize (hexRows b). clear hexRows b. induction l as [|r l IH]; intros NR; [cbn [flat_map]; unfold replaceNewlines; cbn; rewrite app_nil_r; reflexivity|].
    cbn [flat_map]. rewrite !replaceNewlines_app, (replaceNewlines_none _ r) by (apply NR; left; reflexivity). specialize (IH (fun row I => NR row (or_intror I))).
    change (replaceNewlines (ind cs d) [10]) with (10 :: ind cs d ++ []). rewrite app_nil_r. rewrite <- !app_assoc. cbn [app]. rewrite IH. reflexivity. }
  rewrite G. rewrite trimRight_all by (intros c I; eapply ind_in; exact I).
  destruct (hexRows b) as [|r l] using rev_ind; [reflexivity|]. rewrite flat_map_app. cbn [flat_map]. rewrite app_nil_r. rewrite !app_assoc. apply trimRight_stop. exact NI.
Qed.

(** ** Dump writes the text of the tree *)
Section Layout.
  Variable decimal : Z -> bytes.
  Variable quote : bytes -> bytes.
  Variable hexDump : bytes -> bytes.
  Variable hexRows : bytes -> list bytes.
  Variable method : sval -> option mcall.
  Variable valueEq : sval -> sval -> bool.
  Variable spewKey : sval -> bytes.
  Variable sortBy : (entry -> entry -> bool) -> list entry -> list entry.
  Variable cs : config.
  Variable h : heap.
  Notation dump := (dump decimal quote hexDump method valueEq spewKey sortBy cs h).
  Notation unfold := (unfold decimal quote method cs h).
  Notation unfoldParts := (unfoldParts decimal quote method cs h).
  Notation render := (render hexRows cs).

  Hypothesis perm : forall less l, Permutation (sortBy less l) l.
  Hypothesis noNaN : forall r k, ~ In (k, None) (entries h r).
  Hypothesis indentLine : ~ In 10 (Indent cs).
  Hypothesis rows : forall b, hexDump b = flat_map (fun row => row ++ [10]) (hexRows b) /\ forall row, In row (hexRows b) -> ~ In 10 row.

  (** What a call of dump has done *)
  Definition wrote (d : sval -> dst -> dres) (v : sval) : Prop :=
    forall st st' hist, d v st = DEnd st' -> repr (dPtrs st) hist -> dIgnT st = false ->
    exists t hist', unfold (dDepth st) hist v t hist' /\ dOut st' = dOut st ++ (if dIgnI st then [] else ind cs (dDepth st)) ++ render (dDepth st) true t /\
      dDepth st' = dDepth st /\ dIgnT st' = false /\ dIgnI st' = false /\ repr (dPtrs st') hist'.

  Lemma sliceLoop_wrote d : forall l st st' hist, (forall v, In v l -> wrote d (unpackValue v)) -> sliceLoop d l st = DEnd st' -> repr (dPtrs st) hist ->
    dIgnT st = false -> dIgnI st = false ->
    exists ts hist', unfoldParts (dDepth st) hist (map (fun v => (PNone, v)) l) ts hist' /\
      dOut st' = dOut st ++ itemLines (map (fun x => ind cs (dDepth st) ++ match fst x with LNone => [] | LName n => n ++ bs ": " | LKey k => render (dDepth st) true k ++ bs ": " end ++
        render (dDepth st) true (snd x)) ts) /\
      dDepth st' = dDepth st /\ dIgnT st' = false /\ dIgnI st' = false /\ repr (dPtrs st') hist'.
  Proof.
    induction l as [|v l IH]; intros st st' hist W E R T N.
    - injection E as <-. exists [], hist. cbn. rewrite app_nil_r. repeat split; auto; try (apply R); constructor.
    - cbn [sliceLoop] in E. destruct (d (unpackValue v) st) as [st1| |] eqn:E1; try discriminate. cbn [dbind] in E.
      destruct (W v (or_introl eq_refl) _ _ _ E1 R T) as (t & hist1 & U & O & D & T1 & N1 & R1). rewrite N in O.
      destruct l as [|w l].
      + injection E as <-. exists [(LNone, t)], hist1. cbn [map]. split.
        { econstructor; [constructor|exact U|constructor]. }
        cbn. rewrite O, <- !app_assoc. repeat split; auto; apply R1.
      + destruct (IH (dw [44; 10] st1) st' hist1) as (ts & hist' & U' & O' & D' & T' & N' & R'); auto; [intros x I; apply W; right; exact I|].
        cbn [dw dOut dDepth dPtrs dIgnT dIgnI] in U', O', D'. rewrite D in U', O', D'.
        exists ((LNone, t) :: ts), hist'. split; [cbn [map]; econstructor; [constructor|exact U|exact U']|].
        split; [|auto]. rewrite O', O. inversion U'; subst. cbn [map itemLines fst snd]. rewrite <- !app_assoc. reflexivity.
  Qed.
  Lemma structLoop_wrote d ro : forall l st st' hist, (forall n e v, In (n, e, v) l -> forall ro, wrote (d ro) (unpackValue v)) -> structLoop cs d ro l st = DEnd st' -> repr (dPtrs st) hist ->
    dIgnT st = false -> dIgnI st = false ->
    exists ts hist', unfoldParts (dDepth st) hist (map (fun f => (PName (fst (fst f)), snd f)) l) ts hist' /\
      dOut st' = dOut st ++ itemLines (map (fun x => ind cs (dDepth st) ++ match fst x with LNone => [] | LName n => n ++ bs ": " | LKey k => render (dDepth st) true k ++ bs ": " end ++
        render (dDepth st) true (snd x)) ts) /\
      dDepth st' = dDepth st /\ dIgnT st' = false /\ dIgnI st' = false /\ repr (dPtrs st') hist'.
  Proof.
    induction l as [|[[n e] v] l IH]; intros st st' hist W E R T N.
    - injection E as <-. exists [], hist. cbn. rewrite app_nil_r. repeat split; auto; try (apply R); constructor.
    - cbn [structLoop] in E. unfold indent in E. rewrite N in E.
      match type of E with dbind (?f ?x) _ = _ => destruct (f x) as [st1| |] eqn:E1 end; try discriminate. cbn [dbind] in E.
      destruct (W n e v (or_introl eq_refl) _ _ _ _ E1 R T) as (t & hist1 & U & O & D & T1 & N1 & R1). cbn [dSetI dw dOut dDepth dPtrs dIgnT dIgnI] in U, O, D.
      destruct l as [|w l].
      + injection E as <-. exists [(LName n, t)], hist1. cbn [map fst snd]. split.
        { econstructor; [constructor|exact U|constructor]. }
        cbn [dw dOut dDepth dPtrs dIgnT dIgnI itemLines]. rewrite O, repeatBytes_ind, <- !app_assoc. repeat split; auto; apply R1.
      + destruct (IH (dw [44; 10] st1) st' hist1) as (ts & hist' & U' & O' & D' & T' & N' & R'); auto; [intros x y z I; eapply W; right; exact I|].
        cbn [dw dOut dDepth dPtrs dIgnT dIgnI] in U', O', D'. rewrite D in U', O', D'.
        exists ((LName n, t) :: ts), hist'. split; [cbn [map fst snd]; econstructor; [constructor|exact U|exact U']|].
        split; [|auto]. rewrite O', O, repeatBytes_ind. inversion U'; subst. cbn [map itemLines fst snd]. rewrite <- !app_assoc. reflexivity.
  Qed.
  Lemma mapLoop_wrote d : forall l st st' hist, (forall k x, In (k, Some x) l -> wrote d (unpackValue k) /\ wrote d (unpackValue x)) -> (forall k, ~ In (k, None) l) ->
    mapLoop d l st = DEnd st' -> repr (dPtrs st) hist -> dIgnT st = false -> dIgnI st = false ->
    exists ts hist', unfoldParts (dDepth st) hist (flat_map (fun e => match snd e with Some v => [(PKey (fst e), v)] | None => [] end) l) ts hist' /\
      dOut st' = dOut st ++ itemLines (map (fun x => ind cs (dDepth st) ++ match fst x with LNone => [] | LName n => n ++ bs ": " | LKey k => render (dDepth st) true k ++ bs ": " end ++
        render (dDepth st) true (snd x)) ts) /\
      dDepth st' = dDepth st /\ dIgnT st' = false /\ dIgnI st' = false /\ repr (dPtrs st') hist'.
  Proof.
    induction l as [|[k [v|]] l IH]; intros st st' hist W NN E R T N.
    - injection E as <-. exists [], hist. cbn. rewrite app_nil_r. repeat split; auto; try (apply R); constructor.
    - cbn [mapLoop] in E. destruct (W k v (or_introl eq_refl)) as [Wk Wv].
      destruct (d (unpackValue k) st) as [st1| |] eqn:E1; try discriminate. cbn [dbind] in E.
      destruct (Wk _ _ _ E1 R T) as (tk & hist1 & U & O & D & T1 & N1 & R1). rewrite N in O.
      match type of E with dbind (?f ?x) _ = _ => destruct (f x) as [st2| |] eqn:E2 end; try discriminate. cbn [dbind] in E.
      destruct (Wv _ _ _ E2 R1 T1) as (t & hist2 & U2 & O2 & D2 & T2 & N2 & R2). cbn [dSetI dw dOut dDepth dPtrs dIgnT dIgnI] in U2, O2, D2.
      rewrite D in U2, O2, D2.
      destruct l as [|w l].
      + injection E as <-. exists [(LKey tk, t)], hist2. cbn [map flat_map fst snd app]. split.
        { econstructor; [constructor; exact U|exact U2|constructor]. }
        cbn [dw dOut dDepth dPtrs dIgnT dIgnI itemLines]. rewrite O2, O, <- !app_assoc. repeat split; auto; apply R2.
      + destruct (IH (dw [44; 10] st2) st' hist2) as (ts & hist' & U' & O' & D' & T' & N' & R'); auto; [intros x y I; apply W; right; exact I|intros x I; apply (NN x); right; exact I|].
        cbn [dw dOut dDepth dPtrs dIgnT dIgnI] in U', O', D'. rewrite D2 in U', O', D'.
        exists ((LKey tk, t) :: ts), hist'. split; [cbn [flat_map fst snd app]; econstructor; [constructor; exact U|exact U2|exact U']|].
        split; [|auto]. rewrite O', O2, O. destruct w as [k' [v'|]]; [|exfalso; apply (NN k'); right; left; reflexivity].
        cbn [flat_map fst snd app] in U'. inversion U'; subst. cbn [map itemLines fst snd]. rewrite <- !app_assoc. reflexivity.
    - exfalso. apply (NN k). left. reflexivity.
  Qed.
  Lemma handleMethods_says v : says method cs v (fst (match v with SIface _ _ => ([], false) | _ => if negb (DisableMethods cs) then handleMethods method cs v else ([], false) end))
    (snd (match v with SIface _ _ => ([], false) | _ => if negb (DisableMethods cs) then handleMethods method cs v else ([], false) end)).
  Proof.
    assert (G : (forall ty w, v <> SIface ty w) -> says method cs v (fst (if negb (DisableMethods cs) then handleMethods method cs v else ([], false)))
      (snd (if negb (DisableMethods cs) then handleMethods method cs v else ([], false)))).
    { intros NI. destruct (DisableMethods cs) eqn:DM; cbn [negb fst snd]; [constructor; auto|]. unfold handleMethods. destruct (method v) as [m|] eqn:M; [|cbn; constructor; auto].
      destruct m as [t|t]; cbn [methodText]; [|cbn [fst snd]; constructor; auto]. destruct (ContinueOnMethod cs) eqn:C; cbn [fst snd]; constructor; auto. }
    destruct v; try (apply G; intros; discriminate). constructor. right. right. eauto.
  Qed.
  Lemma tooDeep_model d : negb (MaxDepth cs =? 0)%nat && (MaxDepth cs <? d)%nat = tooDeep cs d.
  Proof. reflexivity. Qed.

  (** Values that are not pointers, behind or without a pointer *)
  Definition wroteValue (d : sval -> dst -> dres) (v : sval) : Prop :=
    forall st st' hist, d v st = DEnd st' -> repr (dPtrs st) hist -> (dIgnT st = true -> dIgnI st = false) -> isPtr v = false ->
    exists t hist', unfold (dDepth st) hist v t hist' /\
      dOut st' = dOut st ++ (if dIgnI st || dIgnT st then [] else ind cs (dDepth st)) ++ render (dDepth st) (negb (dIgnT st)) t /\ treeType t = typeText v /\
      dDepth st' = dDepth st /\ dIgnT st' = false /\ dIgnI st' = false /\ repr (dPtrs st') hist'.
  Lemma dump_wrote : forall fuel ro v, wroteValue (dump fuel ro) v /\ wrote (dump fuel ro) v.
  Proof.
    induction fuel as [|fuel IH]; intros ro v; [split; intros st st' hist E; discriminate|].
    assert (WV : forall v, wroteValue (dump (S fuel) ro) v).
    { clear v. intros v st st' hist E R TI P. cbn [SpewModel.dump] in E.
      set (st0 := if negb (dIgnT st) then dw (bs "(" ++ typeText v ++ bs ") ") (indent cs st) else st) in *.
      assert (S0 : dOut st0 = dOut st ++ (if dIgnI st || dIgnT st then [] else ind cs (dDepth st)) ++ heading (negb (dIgnT st)) (typeText v) /\ dDepth st0 = dDepth st /\ dPtrs st0 = dPtrs st /\ dIgnI st0 = false).
      { subst st0. unfold heading. destruct (dIgnT st) eqn:T; cbn [negb].
        - rewrite (TI eq_refl). cbn. rewrite app_nil_r. auto.
        - unfold indent. destruct (dIgnI st) eqn:N; cbn; rewrite ?repeatBytes_ind, <- ?app_assoc; auto. }
      clearbody st0. destruct S0 as (O0 & D0 & P0 & N0).
      pose proof (handleMethods_says v) as SA.
      set (hm := match v with SIface _ _ => ([], false) | _ => if negb (DisableMethods cs) then handleMethods method cs v else ([], false) end) in *.
      set (st1 := dw (fst hm) (dw (lengthText decimal cs h v) (dSetT false st0))) in *.
      assert (S1 : dOut st1 = dOut st0 ++ pre decimal cs h v (fst hm) /\ dDepth st1 = dDepth st0 /\ dPtrs st1 = dPtrs st0 /\ dIgnI st1 = false /\ dIgnT st1 = false).
      { subst st1. cbn. unfold pre. rewrite lengthText_spec, app_assoc. auto. }
      assert (E' : (if snd hm then DEnd st1 else
        match v with
        | SBasic _ k => DEnd (dw (basicText decimal quote k) st1)
        | SPtr _ _ => DEnd st1
        | SIface _ None => DEnd (dw (bs "<nil>") st1)
        | SIface _ (Some _) => DEnd st1
        | SSlice _ _ None | SMap _ None => DEnd (dw (bs "<nil>") st1)
        | SSlice _ _ (Some r) => braces cs (sliceLoop (dump fuel ro) (elems h r)) st1
        | SArr _ l => braces cs (sliceLoop (dump fuel ro) l) st1
        | SHex _ _ b => braces cs (fun st => DEnd (dw (hexdumpText hexDump cs (dDepth st) b) st)) st1
        | SMap _ (Some r) =>
          braces cs (fun st =>
            match (if SortKeys cs then sortValues method valueEq spewKey sortBy cs ro (entries h r) else Some (entries h r)) with
            | None => DPanic
            | Some l => mapLoop (dump fuel ro) l st
            end) st1
        | SStruct _ fs => braces cs (structLoop cs (dump fuel) ro fs) st1
        end) = DEnd st') by (destruct v; try exact E; discriminate).
      clear E. rename E' into E. clearbody st1. destruct S1 as (O1 & D1 & P1 & N1 & T1). rewrite D0 in D1. rewrite P0 in P1. rewrite O0 in O1. rewrite <- P1 in R. clearbody hm. clear O0 D0 P0 N0 st0.
      assert (LEAF : forall text, snd hm = false -> leafText decimal quote v text -> DEnd (dw text st1) = DEnd st' ->
        exists t hist', unfold (dDepth st) hist v t hist' /\
        dOut st' = dOut st ++ (if dIgnI st || dIgnT st then [] else ind cs (dDepth st)) ++ render (dDepth st) (negb (dIgnT st)) t /\ treeType t = typeText v /\
        dDepth st' = dDepth st /\ dIgnT st' = false /\ dIgnI st' = false /\ repr (dPtrs st') hist').
      { intros text SF LT EE. injection EE as <-. exists (TLeaf (typeText v) (pre decimal cs h v (fst hm)) text), hist. rewrite SF in SA.
        split; [apply u_leaf; auto|]. cbn [dw dOut dDepth dPtrs dIgnT dIgnI SpewSpec.render]. rewrite O1, <- !app_assoc. auto 10. }
      destruct (snd hm) eqn:SH.
      { injection E as <-. exists (TLeaf (typeText v) (pre decimal cs h v (fst hm)) []), hist. split; [apply u_says; auto|].
        cbn [SpewSpec.render]. rewrite O1, <- !app_assoc, app_nil_r. auto 10. }
      assert (BLOCK : forall body, (forall st2 st3, body st2 = DEnd st3 -> dIgnT st2 = false -> dIgnI st2 = false -> repr (dPtrs st2) hist -> dDepth st2 = S (dDepth st) ->
          exists l ts hist', parts h v l /\ unfoldParts (S (dDepth st)) hist l ts hist' /\
          dOut st3 = dOut st2 ++ itemLines (map (fun x => ind cs (S (dDepth st)) ++ match fst x with LNone => [] | LName n => n ++ bs ": " | LKey k => render (S (dDepth st)) true k ++ bs ": " end ++
            render (S (dDepth st)) true (snd x)) ts) /\
          dDepth st3 = dDepth st2 /\ dIgnT st3 = false /\ dIgnI st3 = false /\ repr (dPtrs st3) hist') ->
        (exists l, parts h v l) -> braces cs body st1 = DEnd st' ->
        exists t hist', unfold (dDepth st) hist v t hist' /\
        dOut st' = dOut st ++ (if dIgnI st || dIgnT st then [] else ind cs (dDepth st)) ++ render (dDepth st) (negb (dIgnT st)) t /\ treeType t = typeText v /\
        dDepth st' = dDepth st /\ dIgnT st' = false /\ dIgnI st' = false /\ repr (dPtrs st') hist').
      { intros body HB (l0 & P0) EE. unfold braces in EE. cbn [dSetDepth dw dDepth] in EE. rewrite tooDeep_model, D1 in EE. destruct (tooDeep cs (S (dDepth st))) eqn:TD.
        - cbn [dbind] in EE. unfold indent in EE. cbn [dSetDepth dw dIgnI dDepth dOut dPtrs dIgnT] in EE. rewrite N1 in EE. cbn [dSetDepth dw dIgnI dDepth dOut dPtrs dIgnT] in EE. rewrite N1 in EE. injection EE as <-.
          exists (TMax (typeText v) (pre decimal cs h v (fst hm))), hist. split; [eapply u_max; eauto|]. cbn [dw dSetDepth dOut dDepth dPtrs dIgnT dIgnI SpewSpec.render pred].
          change (Indent cs ++ repeatBytes (Indent cs) (dDepth st)) with (repeatBytes (Indent cs) (S (dDepth st))). rewrite O1, !repeatBytes_ind, <- !app_assoc. cbn [pred]. repeat split; auto; apply R.
        - match type of EE with dbind (body ?x) _ = _ => destruct (body x) as [st3| |] eqn:E3 end; try discriminate. cbn [dbind] in EE.
          destruct (HB _ _ E3) as (l & ts & hist' & PA & U & O & D & T & N & R3); auto. cbn [dSetDepth dw dDepth dOut] in O, D.
          unfold indent in EE. cbn [dSetDepth dw dIgnI dDepth dOut dPtrs dIgnT] in EE. rewrite N in EE. injection EE as <-.
          exists (TBlock (typeText v) (pre decimal cs h v (fst hm)) ts), hist'. split; [eapply u_block; eauto|].
          cbn [dw dSetDepth dOut dDepth dPtrs dIgnT dIgnI SpewSpec.render]. rewrite D. cbn [pred].
          rewrite O, O1, !repeatBytes_ind, <- !app_assoc. cbn [pred]. repeat split; auto; apply R3. }
      destruct v as [ty k|ty p|ty w|ty l|ty c s|ty c b|ty m|ty fs].
      - apply (LEAF (basicText decimal quote k)); auto. destruct k; constructor.
      - discriminate.
      - destruct w as [w|]; [apply (LEAF []); auto; [constructor|]|apply (LEAF (bs "<nil>")); auto; constructor].
        rewrite <- E. f_equal. unfold dw. rewrite app_nil_r. destruct st1; reflexivity.
      - apply (BLOCK (sliceLoop (dump fuel ro) l)); auto; [|eexists; constructor]. intros st2 st3 E2 T2 N2 R2 D2.
        destruct (sliceLoop_wrote (dump fuel ro) l st2 st3 hist) as (ts & hist' & U & O & D & T & N & R3); auto; [intros x _; apply IH|]. rewrite D2 in U, O.
        exists (map (fun v => (PNone, v)) l), ts, hist'. split; [constructor|]. auto 10.
      - destruct s as [r|]; [|apply (LEAF (bs "<nil>")); auto; constructor].
        apply (BLOCK (sliceLoop (dump fuel ro) (elems h r))); auto; [|eexists; constructor]. intros st2 st3 E2 T2 N2 R2 D2.
        destruct (sliceLoop_wrote (dump fuel ro) (elems h r) st2 st3 hist) as (ts & hist' & U & O & D & T & N & R3); auto; [intros x _; apply IH|]. rewrite D2 in U, O.
        exists (map (fun v => (PNone, v)) (elems h r)), ts, hist'. split; [constructor|]. auto 10.
      - unfold braces in E. cbn [dSetDepth dw dDepth] in E. rewrite tooDeep_model, D1 in E. destruct (tooDeep cs (S (dDepth st))) eqn:TD.
        + cbn [dbind] in E. unfold indent in E. cbn [dSetDepth dw dIgnI dDepth dOut dPtrs dIgnT] in E. rewrite N1 in E. cbn [dSetDepth dw dIgnI dDepth dOut dPtrs dIgnT] in E. rewrite N1 in E. injection E as <-.
          exists (TMax ty (pre decimal cs h (SHex ty c b) (fst hm))), hist. split; [eapply u_hexmax; eauto|]. cbn [dw dSetDepth dOut dDepth dPtrs dIgnT dIgnI SpewSpec.render pred typeText] in *.
          change (Indent cs ++ repeatBytes (Indent cs) (dDepth st)) with (repeatBytes (Indent cs) (S (dDepth st))). rewrite O1, !repeatBytes_ind, <- !app_assoc. cbn [pred]. repeat split; auto; apply R.
        + cbn [dbind] in E. unfold indent in E. cbn [dSetDepth dw dIgnI dDepth dOut dPtrs dIgnT] in E. rewrite N1 in E. injection E as <-.
          destruct (rows b) as [RW1 RW2].
          exists (THex ty (pre decimal cs h (SHex ty c b) (fst hm)) b), hist. split; [eapply u_hex; eauto|]. cbn [dw dSetDepth dOut dDepth dPtrs dIgnT dIgnI SpewSpec.render pred typeText] in *.
          rewrite (hexdumpText_spec hexDump hexRows) by auto. rewrite O1, !repeatBytes_ind, <- !app_assoc. cbn [pred]. repeat split; auto; apply R.
      - destruct m as [r|]; [|apply (LEAF (bs "<nil>")); auto; constructor].
        eapply BLOCK; [| |exact E]; [|eexists; constructor; apply Permutation_refl]. intros st2 st3 E2 T2 N2 R2 D2. cbv beta in E2.
        assert (exists l, Permutation l (entries h r) /\ mapLoop (dump fuel ro) l st2 = DEnd st3) as (l & PL & E3).
        { destruct (SortKeys cs); [|exists (entries h r); split; [apply Permutation_refl|exact E2]]. unfold sortValues in E2. destruct (entries h r) as [|[k x] l] eqn:En; [exists []; auto|].
          match type of E2 with match (if ?b then _ else _) with _ => _ end = _ => destruct b end; [discriminate|]. eexists; split; [apply perm|exact E2]. }
        destruct (mapLoop_wrote (dump fuel ro) l st2 st3 hist) as (ts & hist' & U & O & D & T & N & R3); auto; [intros; split; apply IH| |].
        { intros k I. apply (Permutation_in _ PL) in I. exact (noNaN _ _ I). }
        rewrite D2 in U, O. eexists; exists ts, hist'. split; [econstructor; exact PL|]. auto 10.
      - apply (BLOCK (structLoop cs (dump fuel) ro fs)); auto; [|eexists; constructor]. intros st2 st3 E2 T2 N2 R2 D2.
        destruct (structLoop_wrote (dump fuel) ro fs st2 st3 hist) as (ts & hist' & U & O & D & T & N & R3); auto; [intros; apply IH|]. rewrite D2 in U, O.
        exists (map (fun f => (PName (fst (fst f)), snd f)) fs), ts, hist'. split; [constructor|]. auto 10. }
    split; [apply WV|]. intros st st' hist E R T. destruct (isPtr v) eqn:P.
    2:{ destruct (WV v st st' hist E R ltac:(congruence) P) as (t & hist' & U & O & _ & X). rewrite T, orb_false_r in O. cbn [negb] in O. eauto 10. }
    destruct v as [| ty p | | | | | |]; try discriminate. cbn [SpewModel.dump] in E. clear WV.
    assert (S0 : dOut (indent cs st) = dOut st ++ (if dIgnI st then [] else ind cs (dDepth st)) /\ dDepth (indent cs st) = dDepth st /\ dPtrs (indent cs st) = dPtrs st /\ dIgnI (indent cs st) = false /\ dIgnT (indent cs st) = false).
    { unfold indent. destruct (dIgnI st) eqn:N; cbn; rewrite ?app_nil_r, ?repeatBytes_ind; auto 10. }
    revert E S0. generalize (indent cs st). intros st0 E (O0 & D0 & P0 & N0 & T0). rewrite <- P0 in R. unfold dumpPtr in E. rewrite D0 in E.
    destruct (chase h fuel (dDepth st) (forget (dDepth st) (dPtrs st0)) (SPtr ty p) 0 []) as [c|] eqn:C; [|discriminate].
    pose proof (repr_forget _ _ (dDepth st) R) as RF.
    destruct (chase_chain h (dDepth st) _ _ _ _ _ _ _ RF (fun a k I => Nat.lt_le_incl _ _ (proj2 (proj1 (In_forget _ _ _ _) I))) C) as (l & hist1 & CH & CL & R1 & CI).
    cbn [app] in CL. cbn [Nat.add] in CI.
    set (st2 := dw (bs "(") _) in E.
    assert (S2 : dOut st2 = dOut st0 ++ bs "(" ++ repeat 42 (cInd c) ++ typeText (cVe c) ++ bs ")" ++
      (if DisablePointerAddresses cs || match l with [] => true | _ => false end then [] else bs "(" ++ arrows (map hexText l) ++ bs ")") ++ bs "(" /\
      dDepth st2 = dDepth st0 /\ dPtrs st2 = cPtrs c /\ dIgnT st2 = dIgnT st0 /\ dIgnI st2 = dIgnI st0).
    { subst st2. rewrite CL, repeatBytes_stars, chainText_arrows. destruct (DisablePointerAddresses cs), l as [|a l]; cbn [negb andb orb List.length Nat.ltb Nat.leb dw dSetPtrs dOut dDepth dPtrs dIgnT dIgnI];
        rewrite <- !app_assoc; auto. }
    clearbody st2. destruct S2 as (O2 & D2 & P2 & T2 & N2). rewrite O0 in O2. rewrite D0 in D2. rewrite T0 in T2. rewrite N0 in N2. rewrite <- P2 in R1.
    unfold endOf in CH, CI. destruct (cNil c) eqn:CN.
    { injection E as <-. exists (TPtr (List.length l) (typeText (cVe c)) l GNil), hist1. split; [eapply u_nil; [reflexivity|exact CH]|].
      cbn [dw dOut dDepth dPtrs dIgnT dIgnI SpewSpec.render]. rewrite O2, CI, <- !app_assoc. auto 10. }
    destruct (cCycle c) eqn:CC.
    { injection E as <-. exists (TPtr (pred (List.length l)) (typeText (cVe c)) l GShown), hist1. split; [eapply u_shown; [reflexivity|exact CH]|].
      cbn [dw dOut dDepth dPtrs dIgnT dIgnI SpewSpec.render]. rewrite O2, CI, <- !app_assoc. auto 10. }
    match type of E with dbind (?f ?x ?y) _ = _ => destruct (f x y) as [st3| |] eqn:E3 end; try discriminate. injection E as <-.
    destruct (proj1 (IH ro (cVe c)) _ _ hist1 E3 R1) as (t & hist2 & U & O & TT & D & T3 & N3 & R3); [intros _; exact N2|eapply chase_end_value; eauto|].
    cbn [dSetT dOut dDepth dPtrs dIgnT dIgnI negb] in U, O, D. rewrite orb_true_r in O. cbn [app] in O. rewrite D2 in U, O, D.
    exists (TPtr (List.length l) (typeText (cVe c)) l (GValue t)), hist2. split; [eapply u_value; [reflexivity|exact CH|exact U]|].
    cbn [dw dOut dDepth dPtrs dIgnT dIgnI SpewSpec.render]. rewrite O, O2, CI, <- !app_assoc. auto 10.
  Qed.
End Layout.
