(** Proofs about GetGroupedOpCodes. *)
From Verif Require Import Base DiffModel DiffSpec DiffProofs DiffBlockProofs DiffCodeProofs.

Lemma int64_id : forall z, - 2 ^ 63 <= z < 2 ^ 63 -> int64 z = z.
Proof. intros z H. unfold int64. rewrite Z.mod_small by lia. lia. Qed.

(** Grouping loses no change, whatever n is *)
Lemma changes_app : forall l l', changes (l ++ l') = changes l ++ changes l'.
Proof. intros. unfold changes. apply filter_app. Qed.
Lemma changes_e : forall c l, Tag c = tag_e -> changes (c :: l) = changes l.
Proof. intros c l H. unfold changes. cbn [filter]. now rewrite H. Qed.
Lemma groupLoop_changes : forall r n nn g, changes (List.concat (groupLoop n nn g r)) = changes g ++ changes r.
Proof.
  induction r as [|c r IH]; intros n nn g; cbn [groupLoop].
  - change (changes []) with (@nil OpCode). rewrite app_nil_r. destruct g as [|c [|c' g]].
    + reflexivity.
    + destruct (Tag c =? tag_e) eqn:E; [|cbn [List.concat]; now rewrite app_nil_r].
      cbn. rewrite E. reflexivity.
    + cbn [List.concat]. now rewrite app_nil_r.
  - destruct (Tag c =? tag_e) eqn:E; cbn [andb].
    + assert (Tc : Tag c = tag_e) by lia. rewrite (changes_e c r Tc). destruct (nn <? int64 (I2 c - I1 c)).
      * cbn [List.concat]. rewrite changes_app, IH, changes_app. rewrite (changes_e (cutLast n c) []) by exact Tc.
        rewrite (changes_e (mkOp _ _ _ _ _) []) by exact Tc. change (changes []) with (@nil OpCode). now rewrite app_nil_r.
      * rewrite IH, changes_app, (changes_e c []) by exact Tc. change (changes []) with (@nil OpCode). now rewrite app_nil_r.
    + rewrite IH, changes_app. unfold changes at 3. cbn [filter]. unfold changes. cbn [filter]. rewrite E. cbn [negb]. now rewrite <- app_assoc.
Qed.

Lemma fixEnd_tags : forall n l, map Tag (fixEnd n l) = map Tag l.
Proof.
  intros n. induction l as [|c l IH]; [reflexivity|]. destruct l as [|c' l].
  - cbn. unfold fixLast. destruct (Tag c =? tag_e); reflexivity.
  - change (fixEnd n (c :: c' :: l)) with (c :: fixEnd n (c' :: l)). cbn [map] in *. now rewrite IH.
Qed.
Lemma fixEnd_changes : forall n l, changes (fixEnd n l) = changes l.
Proof.
  intros n. induction l as [|c l IH]; [reflexivity|]. destruct l as [|c' l].
  - cbn [fixEnd]. unfold fixLast. destruct (Tag c =? tag_e) eqn:E; [|reflexivity]. unfold changes. cbn. now rewrite E.
  - change (fixEnd n (c :: c' :: l)) with (c :: fixEnd n (c' :: l)). unfold changes in *. cbn [filter] in *.
    destruct (Tag c =? tag_e); cbn [negb]; [exact IH|now f_equal].
Qed.
Lemma fixCodes_changes : forall n l, changes (fixCodes n l) = changes l.
Proof.
  intros n [|c l]; [reflexivity|]. unfold fixCodes. rewrite fixEnd_changes. unfold fixFirst. destruct (Tag c =? tag_e) eqn:E; [|reflexivity].
  unfold changes. cbn [filter Tag]. now rewrite E.
Qed.

Lemma alt_tags : forall l l' p, map Tag l = map Tag l' -> alt p l -> alt p l'.
Proof.
  induction l as [|c l IH]; intros [|c' l'] p E H; try discriminate; [exact I|].
  cbn [map] in E. injection E as E1 E2. cbn [alt] in *. rewrite <- E1. destruct H as [H1 H2]. split; [exact H1|]. now apply IH.
Qed.

Section Groups.
  Variable a b : list bytes.
  Variable n : Z.
  Hypothesis Hn : 0 <= n < 2 ^ 62.
  Hypothesis La : lenZ a < 2 ^ 62.
  Hypothesis Lb : lenZ b < 2 ^ 62.

  Definition same (i j k : Z) : Prop := forall d, 0 <= d < k -> nthZ a (i + d) = nthZ b (j + d).
  Lemma same_app : forall i j k l, same i j k -> same (i + k) (j + k) l -> same i j (k + l).
  Proof.
    intros i j k l H1 H2 d Hd. destruct (Z_lt_ge_dec d k) as [L|G]; [apply H1; lia|]. specialize (H2 (d - k) ltac:(lia)).
    replace (i + k + (d - k)) with (i + d) in H2 by lia. now replace (j + k + (d - k)) with (j + d) in H2 by lia.
  Qed.
  Lemma same_sub : forall i j k i' j' k', same i j k -> i <= i' -> i' + k' <= i + k -> i' - i = j' - j -> same i' j' k'.
  Proof.
    intros i j k i' j' k' H H1 H2 H3 d Hd. specialize (H (i' - i + d) ltac:(lia)).
    replace (i + (i' - i + d)) with (i' + d) in H by lia. now replace (j + (i' - i + d)) with (j' + d) in H by lia.
  Qed.
  Lemma same_part : forall i j i' j', same i j (i' - i) -> 0 <= i -> i <= i' -> i' <= lenZ a -> 0 <= j -> j' <= lenZ b -> i' - i = j' - j ->
    part a i i' = part b j j'.
  Proof.
    intros i j i' j' H H1 H2 H3 H4 H5 H6. replace i' with (i + (i' - i)) by lia. replace j' with (j + (i' - i)) by lia.
    apply eq_part; try lia. exact H.
  Qed.

  Definition okc (c : OpCode) : Prop :=
    0 <= I1 c <= I2 c /\ I2 c <= lenZ a /\ 0 <= J1 c <= J2 c /\ J2 c <= lenZ b /\
    (Tag c = tag_e -> J2 c - J1 c = I2 c - I1 c /\ same (I1 c) (J1 c) (I2 c - I1 c)) /\
    (Tag c <> tag_e -> truthful a b c).
  Lemma okc_truthful0 : forall c, okc c -> truthful0 a b c.
  Proof.
    intros c (H1 & H2 & H3 & H4 & H5 & H6). destruct (Z.eq_dec (Tag c) tag_e) as [E|E]; [|left; now apply H6].
    destruct (H5 E) as [H7 H8]. destruct (Z.eq_dec (I1 c) (I2 c)); [right; split; [exact E|lia]|].
    left. left. split; [exact E|]. split; [lia|]. split; [lia|]. apply same_part; try lia. exact H8.
  Qed.
  Lemma right_okc : forall codes i j, 0 <= i -> 0 <= j -> Forall (right_code a b) codes -> tiles i j codes (lenZ a) (lenZ b) -> Forall okc codes.
  Proof.
    induction codes as [|c codes IH]; intros i j Hi Hj R T; [constructor|]. cbn [tiles] in T. destruct T as (T1 & T2 & T3).
    inversion R as [|? ? R1 R2]; subst. pose proof (tiles_le a b _ _ _ _ _ R2 T3) as [L1 L2].
    destruct R1 as (Tr & R3 & R4 & R5). assert (B : I1 c <= I2 c /\ J1 c <= J2 c) by (destruct Tr as [H|[H|[H|H]]]; lia).
    constructor; [|apply (IH (I2 c) (J2 c)); try assumption; lia].
    split; [lia|]. split; [lia|]. split; [lia|]. split; [lia|]. split; [|intros _; exact Tr]. intro E. split; [lia|]. intros d Hd.
    destruct Tr as [H|[H|[H|H]]]; try (destruct H as [H _]; rewrite H in E; discriminate).
    destruct H as (_ & _ & _ & P). specialize (R5 E).
    apply (proj1 (eq_part a b (I1 c) (J1 c) (I2 c - I1 c) ltac:(lia) ltac:(lia) ltac:(lia) ltac:(lia) ltac:(lia))); [|lia].
    replace (I1 c + (I2 c - I1 c)) with (I2 c) by lia. now replace (J1 c + (I2 c - I1 c)) with (J2 c) by lia.
  Qed.

  Lemma lead_app : forall g g', g <> [] -> lead (g ++ g') = lead g.
  Proof. intros [|c g] g' H; [contradiction|reflexivity]. Qed.
  Lemma trail_app : forall g g', g' <> [] -> trail (g ++ g') = trail g'.
  Proof.
    intros g g' H. unfold trail. rewrite rev_app_distr. apply lead_app. intro F. apply H.
    apply (f_equal (@rev _)) in F. now rewrite rev_involutive in F.
  Qed.
  Lemma trail_one : forall c, trail [c] = if Tag c =? tag_e then I2 c - I1 c else 0.
  Proof. reflexivity. Qed.

  (** What follows the last group *)
  Definition tail_ok (ei ej : Z) (l : list OpCode) : Prop :=
    0 <= ei <= lenZ a /\ 0 <= ej /\ lenZ a - ei = lenZ b - ej /\ same ei ej (lenZ a - ei) /\
    trail l <= n /\ (ei < lenZ a -> trail l = n).

  Lemma cutLast_eq : forall c, okc c ->
    cutLast n c = mkOp (Tag c) (I1 c) (Z.min (I2 c) (I1 c + n)) (J1 c) (Z.min (J2 c) (J1 c + n)).
  Proof.
    intros c (H1 & H2 & H3 & H4 & _). unfold cutLast. rewrite !int64_id by lia. reflexivity.
  Qed.

  Lemma groupLoop_ok : forall r g i j t si sj ci cj ei ej,
    0 <= i <= si -> 0 <= j -> si - i = sj - j -> same i j (si - i) ->
    tiles si sj g ci cj -> tiles ci cj r ei ej -> Forall okc g -> Forall okc r -> alt None (g ++ r) ->
    Forall (fun c => Tag c = tag_e -> I2 c - I1 c <= 2 * n) g -> tail_ok ei ej (g ++ r) ->
    (g = [] /\ t = n /\ lead r <= n /\ (i < si -> lead r = n)) \/
    (exists c, g = [c] /\ Tag c = tag_e /\ I2 c - I1 c <= n /\ t = n /\ (i < si -> I2 c - I1 c = n)) \/
    (changes g <> [] /\ lead g <= n /\ (i < si -> t = n /\ lead g = n)) ->
    grouped n a b i j t (groupLoop n (2 * n) g r).
  Proof.
    induction r as [|c r IH]; intros g i j t si sj ci cj ei ej Hi Hj Hs Hsame Tg Tr Og Or Al In2 TO Cs.
    - cbn [groupLoop]. cbn [tiles] in Tr. destruct Tr as [-> ->]. rewrite app_nil_r in *.
      destruct TO as (TO1 & TO2 & TO3 & TO4 & TO5 & TO6).
      destruct Cs as [(-> & Ct & Cl & Cl2)|[(c & -> & Ec & Cl & Ct & Cl2)|(Cc & Cl & Cl2)]].
      + cbn [tiles] in Tg. destruct Tg as [-> ->]. apply grouped_end; try lia.
        apply same_part; try lia. replace (lenZ a - i) with (ei - i + (lenZ a - ei)) by lia.
        apply same_app; [exact Hsame|]. replace (i + (ei - i)) with ei by lia. now replace (j + (ei - i)) with ej by lia.
      + cbn [tiles] in Tg. destruct Tg as (G1 & G2 & G3 & G4). rewrite Ec. cbn [Z.eqb]. rewrite Z.eqb_refl.
        inversion Og as [|? ? (O1 & O2 & O3 & O4 & O5 & O6) _]; subst. destruct (O5 Ec) as [O7 O8].
        apply grouped_end; try lia. apply same_part; try lia.
        replace (lenZ a - i) with ((I1 c - i) + ((I2 c - I1 c) + (lenZ a - I2 c))) by lia.
        apply same_app; [exact Hsame|]. replace (i + (I1 c - i)) with (I1 c) by lia. replace (j + (I1 c - i)) with (J1 c) by lia.
        apply same_app; [exact O8|]. replace (I1 c + (I2 c - I1 c)) with (I2 c) by lia. now replace (J1 c + (I2 c - I1 c)) with (J2 c) by lia.
      + assert (G : match g with [] => [] | [c] => if Tag c =? tag_e then [] else [g] | _ => [g] end = [g]).
        { destruct g as [|c [|c' g]]; [now destruct Cc| |reflexivity]. destruct (Tag c =? tag_e) eqn:E; [|reflexivity].
          exfalso. apply Cc. unfold changes. cbn. now rewrite E. }
        assert (Bg : forall g si sj ci cj, Forall okc g -> tiles si sj g ci cj -> g <> [] -> si <= lenZ a /\ 0 <= sj <= lenZ b).
        { clear. intros [|c g] si sj ci cj O T N; [contradiction|]. inversion O as [|? ? (O1 & O2 & O3 & O4 & _) _]; subst.
          cbn [tiles] in T. lia. }
        destruct (Bg g si sj ei ej Og Tg) as [B1 B2]; [intro F; subst g; now apply Cc|].
        rewrite G. apply (grouped_next n a b i j t si sj ei ej g []); try assumption; try lia.
        * apply same_part; try lia. exact Hsame.
        * eapply Forall_impl; [|exact Og]. apply okc_truthful0.
        * now apply alt_alternate.
        * apply grouped_end; [lia|lia| |exact TO6]. apply same_part; try lia. exact TO4.
    - cbn [tiles] in Tr. destruct Tr as (T1 & T2 & T3). inversion Or as [|? ? Oc Or']; subst.
      pose proof Oc as (O1 & O2 & O3 & O4 & O5 & O6). cbn [groupLoop].
      assert (Ta : tiles si sj (g ++ [c]) (I2 c) (J2 c)) by (eapply tiles_app; [exact Tg|cbn; auto]).
      assert (Oa : Forall okc (g ++ [c])) by (apply Forall_app; split; [exact Og|constructor; [exact Oc|constructor]]).
      assert (Aa : alt None ((g ++ [c]) ++ r)) by (now rewrite <- app_assoc).
      assert (TOa : tail_ok ei ej ((g ++ [c]) ++ r)) by (now rewrite <- app_assoc).
      destruct (Tag c =? tag_e) eqn:Ec; cbn [andb].
      + assert (Tc : Tag c = tag_e) by lia. destruct (O5 Tc) as [O7 O8]. rewrite int64_id by lia.
        destruct (2 * n <? I2 c - I1 c) eqn:El.
        * (* the group ends here *)
          destruct Cs as [(-> & Ct & Cl & Cl2)|[(c' & -> & Ec' & Cl & Ct & Cl2)|(Cc & Cl & Cl2)]].
          -- exfalso. cbn [lead] in Cl. rewrite Ec in Cl. lia.
          -- exfalso. cbn [app alt] in Al. destruct Al as (_ & Al & _). apply Al. now rewrite Ec, Ec', Z.eqb_refl.
          -- rewrite cutLast_eq by exact Oc. rewrite !int64_id by lia.
             replace (Z.min (I2 c) (I1 c + n)) with (I1 c + n) by lia. replace (Z.min (J2 c) (J1 c + n)) with (J1 c + n) by lia.
             replace (Z.max (I1 c) (I2 c - n)) with (I2 c - n) by lia. replace (Z.max (J1 c) (J2 c - n)) with (J2 c - n) by lia.
             set (c1 := mkOp (Tag c) (I1 c) (I1 c + n) (J1 c) (J1 c + n)). set (c2 := mkOp (Tag c) (I2 c - n) (I2 c) (J2 c - n) (J2 c)).
             assert (OK1 : okc c1).
             { unfold okc, c1. cbn [Tag I1 I2 J1 J2]. split; [lia|]. split; [lia|]. split; [lia|]. split; [lia|].
               split; [|contradiction]. intros _. split; [lia|]. eapply same_sub; [exact O8| | |]; lia. }
             assert (OK2 : okc c2).
             { unfold okc, c2. cbn [Tag I1 I2 J1 J2]. split; [lia|]. split; [lia|]. split; [lia|]. split; [lia|].
               split; [|contradiction]. intros _. split; [lia|]. eapply same_sub; [exact O8| | |]; lia. }
             assert (Ng : g <> []) by (intro F; subst g; now apply Cc).
             assert (Bg : si <= lenZ a /\ 0 <= sj <= lenZ b).
             { destruct g as [|x g]; [contradiction|]. inversion Og as [|? ? (X1 & X2 & X3 & X4 & _) _]; subst. cbn [tiles] in Tg. lia. }
             assert (Tl : trail (g ++ [c1]) = n) by (rewrite trail_app by discriminate; rewrite trail_one; cbn [Tag c1 I1 I2]; rewrite Ec; lia).
             apply (grouped_next n a b i j t si sj (I1 c + n) (J1 c + n) (g ++ [c1]) _); try lia.
             ++ apply same_part; try lia. exact Hsame.
             ++ rewrite lead_app by exact Ng. exact Cl2.
             ++ eapply tiles_app; [exact Tg|]. cbn. auto.
             ++ eapply Forall_impl; [apply okc_truthful0|]. apply Forall_app. split; [exact Og|]. constructor; [exact OK1|constructor].
             ++ apply alt_alternate. apply (alt_tags (g ++ [c])); [now rewrite !map_app|]. apply alt_app in Aa. apply Aa.
             ++ rewrite changes_app. intro F. apply app_eq_nil in F. now apply Cc.
             ++ rewrite lead_app by exact Ng. exact Cl.
             ++ apply Forall_app. split; [exact In2|]. repeat constructor. cbn [c1 I1 I2]. intros _. lia.
             ++ rewrite Tl. apply (IH [c2] (I1 c + n) (J1 c + n) n (I2 c - n) (J2 c - n) (I2 c) (J2 c) ei ej); try lia; try assumption.
                ** eapply same_sub; [exact O8| | |]; lia.
                ** cbn. auto.
                ** constructor; [exact OK2|constructor].
                ** apply (alt_tags (c :: r)); [reflexivity|]. apply alt_app in Al. apply Al.
                ** repeat constructor. cbn [c2 I1 I2]. intros _. lia.
                ** destruct TOa as (TO1 & TO2 & TO3 & TO4 & TO5 & TO6). split; [lia|]. split; [lia|]. split; [lia|]. split; [exact TO4|]. split.
                   --- destruct r as [|x r]; [|rewrite trail_app in TO5 |- * by discriminate; exact TO5].
                       cbn [app]. rewrite trail_one. cbn [c2 Tag I1 I2]. rewrite Ec. lia.
                   --- intro L. specialize (TO6 L). destruct r as [|x r].
                       +++ cbn [app]. rewrite trail_one. cbn [c2 Tag I1 I2]. rewrite Ec. lia.
                       +++ rewrite trail_app in TO6 |- * by discriminate. exact TO6.
                ** right. left. exists c2. cbn [c2 Tag I1 I2]. repeat split; try lia.
        * apply (IH (g ++ [c]) i j t si sj (I2 c) (J2 c) ei ej); try assumption.
          -- apply Forall_app. split; [exact In2|]. repeat constructor. intros _. lia.
          -- destruct Cs as [(-> & Ct & Cl & Cl2)|[(c' & -> & Ec' & Cl & Ct & Cl2)|(Cc & Cl & Cl2)]].
             ++ right. left. exists c. cbn [lead] in Cl, Cl2. rewrite Ec in Cl, Cl2. repeat split; assumption.
             ++ exfalso. cbn [app alt] in Al. destruct Al as (_ & Al & _). apply Al. now rewrite Ec, Ec', Z.eqb_refl.
             ++ right. right. assert (Ng : g <> []) by (intro F; subst g; now apply Cc). rewrite lead_app by exact Ng.
                split; [|auto]. rewrite changes_app. intro F. apply app_eq_nil in F. now apply Cc.
      + apply (IH (g ++ [c]) i j t si sj (I2 c) (J2 c) ei ej); try assumption.
        * apply Forall_app. split; [exact In2|]. repeat constructor. intro F. lia.
        * right. right. split; [|split].
          -- rewrite changes_app. unfold changes at 2. cbn [filter]. rewrite Ec. intro F. apply app_eq_nil in F. destruct F as [_ F]. discriminate.
          -- destruct Cs as [(-> & Ct & Cl & Cl2)|[(c' & -> & Ec' & Cl & Ct & Cl2)|(Cc & Cl & Cl2)]].
             ++ cbn [app lead] in *. rewrite Ec in *. exact Cl.
             ++ cbn [app lead]. rewrite Ec', Z.eqb_refl. exact Cl.
             ++ rewrite lead_app; [exact Cl|]. intro F. subst g. now apply Cc.
          -- intro L. destruct Cs as [(-> & Ct & Cl & Cl2)|[(c' & -> & Ec' & Cl & Ct & Cl2)|(Cc & Cl & Cl2)]].
             ++ cbn [app lead] in *. rewrite Ec in *. auto.
             ++ cbn [app lead]. rewrite Ec', Z.eqb_refl. auto.
             ++ rewrite lead_app; [auto|]. intro F. subst g. now apply Cc.
  Qed.

  Lemma fixEnd_ok : forall l i0 j0, l <> [] -> tiles i0 j0 l (lenZ a) (lenZ b) -> Forall okc l ->
    exists ei ej, tiles i0 j0 (fixEnd n l) ei ej /\ Forall okc (fixEnd n l) /\ tail_ok ei ej (fixEnd n l).
  Proof.
    induction l as [|c l IH]; intros i0 j0 N T O; [contradiction|]. inversion O as [|? ? Oc Ol]; subst.
    destruct T as (T1 & T2 & T3). destruct l as [|c' l].
    - cbn [tiles] in T3. destruct T3 as [T3 T4]. cbn [fixEnd]. pose proof Oc as (O1 & O2 & O3 & O4 & O5 & O6). unfold fixLast.
      destruct (Tag c =? tag_e) eqn:E.
      + assert (Tc : Tag c = tag_e) by lia. destruct (O5 Tc) as [O7 O8]. rewrite cutLast_eq by exact Oc.
        exists (Z.min (I2 c) (I1 c + n)), (Z.min (J2 c) (J1 c + n)). split; [cbn; auto|]. split.
        * constructor; [|constructor]. unfold okc. cbn [Tag I1 I2 J1 J2]. split; [lia|]. split; [lia|]. split; [lia|]. split; [lia|].
          split; [|intro F; contradiction]. intros _. split; [lia|]. eapply same_sub; [exact O8| | |]; lia.
        * unfold tail_ok. rewrite trail_one. cbn [Tag I1 I2]. rewrite E. split; [lia|]. split; [lia|]. split; [lia|].
          split; [|split; lia]. eapply same_sub; [exact O8| | |]; lia.
      + exists (lenZ a), (lenZ b). split; [cbn; auto|]. split; [exact O|]. unfold tail_ok. rewrite trail_one, E.
        pose proof (lenZ_nonneg _ a). pose proof (lenZ_nonneg _ b). split; [lia|]. split; [lia|]. split; [lia|].
        split; [intros d Hd; lia|]. split; lia.
    - destruct (IH (I2 c) (J2 c)) as (ei & ej & H1 & H2 & H3); [discriminate|exact T3|exact Ol|].
      exists ei, ej. change (fixEnd n (c :: c' :: l)) with ([c] ++ fixEnd n (c' :: l)). split; [cbn [app tiles]; auto|].
      split; [now constructor|]. destruct H3 as (E1 & E2 & E3 & E4 & E5). split; [exact E1|]. split; [exact E2|]. split; [exact E3|].
      split; [exact E4|]. rewrite trail_app; [exact E5|]. destruct l; cbn; discriminate.
  Qed.
  Lemma fixEnd_lead : forall l, Forall okc l -> lead l <= n -> lead (fixEnd n l) = lead l.
  Proof.
    intros [|c [|c' l]] O H; try reflexivity. inversion O as [|? ? Oc _]; subst. cbn [fixEnd lead] in *. unfold fixLast.
    destruct (Tag c =? tag_e) eqn:E; [|now rewrite E]. rewrite cutLast_eq by exact Oc. cbn [Tag I1 I2]. rewrite E. lia.
  Qed.

  Theorem groups_ok : forall codes, right_codes a b 0 0 codes (lenZ a) (lenZ b) -> codes <> [] ->
    grouped n a b 0 0 n (groupLoop n (2 * n) [] (fixCodes n codes)).
  Proof.
    intros [|c r] (T & R & Al) N; [contradiction|]. clear N.
    assert (O : Forall okc (c :: r)) by (apply (right_okc (c :: r) 0 0); try lia; assumption).
    inversion O as [|? ? Oc Or]; subst. pose proof Oc as (O1 & O2 & O3 & O4 & O5 & O6). destruct T as (T1 & T2 & T3).
    assert (F : exists i0, 0 <= i0 /\ same 0 0 i0 /\ tiles i0 i0 (fixFirst n c :: r) (lenZ a) (lenZ b) /\ okc (fixFirst n c) /\
                lead (fixFirst n c :: r) <= n /\ (0 < i0 -> lead (fixFirst n c :: r) = n)).
    { unfold fixFirst. destruct (Tag c =? tag_e) eqn:E.
      - assert (Tc : Tag c = tag_e) by lia. destruct (O5 Tc) as [O7 O8]. rewrite !int64_id by lia. rewrite T1, T2 in *.
        exists (Z.max 0 (I2 c - n)). split; [lia|]. split; [eapply same_sub; [exact O8| | |]; lia|]. split; [cbn; repeat split; try lia; exact T3|].
        split; [|cbn [lead Tag I1 I2]; rewrite E; split; lia]. unfold okc. cbn [Tag I1 I2 J1 J2]. split; [lia|]. split; [lia|].
        split; [lia|]. split; [lia|]. split; [|contradiction]. intros _. split; [lia|]. eapply same_sub; [exact O8| | |]; lia.
      - exists 0. split; [lia|]. split; [intros d Hd; lia|]. split; [cbn; auto|]. split; [exact Oc|]. cbn [lead]. rewrite E. split; lia. }
    destruct F as (i0 & F1 & F2 & F3 & F4 & F5 & F6).
    assert (Of : Forall okc (fixFirst n c :: r)) by (constructor; assumption).
    destruct (fixEnd_ok (fixFirst n c :: r) i0 i0 ltac:(discriminate) F3 Of) as (ei & ej & E1 & E2 & E3).
    cbn [fixCodes]. eapply (groupLoop_ok _ [] 0 0 n i0 i0 i0 i0 ei ej); try lia; try assumption.
    - now rewrite Z.sub_0_r.
    - cbn. auto.
    - constructor.
    - apply (alt_tags (c :: r)); [|exact Al]. cbn [app]. rewrite fixEnd_tags. cbn [map]. f_equal. unfold fixFirst. now destruct (Tag c =? tag_e).
    - constructor.
    - left. split; [reflexivity|]. split; [reflexivity|]. rewrite fixEnd_lead by assumption. auto.
  Qed.
End Groups.

(** Two empty lists have no groups *)
Lemma groups_empty : forall n, 0 <= n < 2 ^ 62 -> groupLoop n (int64 (n + n)) [] (fixCodes n [mkOp tag_e 0 1 0 1]) = [].
Proof.
  intros n H. rewrite (int64_id (n + n)) by lia. unfold fixCodes, fixFirst. cbn [Tag I1 I2 J1 J2 Z.eqb]. rewrite Z.eqb_refl.
  rewrite !int64_id by lia. cbn [fixEnd]. unfold fixLast. cbn [Tag]. rewrite Z.eqb_refl. unfold cutLast. cbn [Tag I1 I2 J1 J2].
  rewrite !int64_id by lia. cbn [groupLoop Tag I1 I2]. rewrite Z.eqb_refl. rewrite int64_id by lia. cbn [andb].
  destruct (n + n <? _) eqn:E; [lia|]. cbn [app Tag]. now rewrite Z.eqb_refl.
Qed.
