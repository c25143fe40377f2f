(** Proofs about writeBytes of msgfmt. *)
From Verif Require Import Base JsonStrSpec JsonStrModel JsonStrProofs ParseModel ParseSpec MsgfmtModel MsgfmtSpec.

Lemma safe_clear : forall b, fmtSafeSet b = true <-> clear b.
Proof.
  intros b. unfold fmtSafeSet, clear. rewrite !andb_true_iff, !negb_true_iff, !Z.eqb_neq, !Z.leb_le. lia.
Qed.
Lemma safe_clear_f : forall b, fmtSafeSet b = false <-> ~ clear b.
Proof. intros b. rewrite <- safe_clear. destruct (fmtSafeSet b); split; congruence. Qed.

Lemma clear_escaped : forall b, clear b -> escaped b = [b].
Proof.
  intros b H. unfold escaped. replace ((32 <=? b) && (b <? 128) && negb (b =? 92) && negb (b =? 124)) with true; auto.
  symmetry. red in H. rewrite !andb_true_iff, !negb_true_iff, !Z.eqb_neq, Z.leb_le, Z.ltb_lt. lia.
Qed.

Lemma hexByte_chars : forall b, 0 <= b < 256 -> [92; 120] ++ hexByte b = bs "\x" ++ [hexchar (b / 16); hexchar (b mod 16)].
Proof.
  intros b Hb. destruct (nibble_div b Hb) as (N1 & N2 & N3 & N4). unfold hexByte. now rewrite N1, N2, !hexAt_hexchar by auto.
Qed.

Lemma high_escaped : forall b, 0 <= b < 256 -> 128 <= b -> [92; 120] ++ hexByte b = escaped b.
Proof.
  intros b Hb Hh. rewrite hexByte_chars by auto. unfold escaped. replace (b <? 128) with false by lia. rewrite andb_false_r. cbn [andb].
  replace (b =? 92) with false by lia. replace (b =? 10) with false by lia. replace (b =? 13) with false by lia. replace (b =? 9) with false by lia.
  reflexivity.
Qed.

Lemma unsafe_escaped : forall b, 0 <= b < 256 -> b < 128 -> fmtSafeSet b = false ->
  (if (b =? 92) || (b =? 34) then [92; b]
   else if b =? 10 then bs "\n" else if b =? 13 then bs "\r" else if b =? 9 then bs "\t"
   else [92; 120] ++ hexByte b) = escaped b.
Proof.
  intros b Hb Hl Hs. unfold escaped.
  replace ((32 <=? b) && (b <? 128) && negb (b =? 92) && negb (b =? 124)) with false.
  2: { symmetry. rewrite <- Hs. unfold fmtSafeSet. replace (b <? 128) with true by lia. now replace (b <=? 127) with true by lia. }
  destruct (b =? 92) eqn:E; [apply Z.eqb_eq in E; subst; reflexivity|].
  destruct (b =? 34) eqn:E2; [apply Z.eqb_eq in E2; subst b; discriminate|]. cbn [orb].
  destruct (b =? 10), (b =? 13), (b =? 9); auto. now apply hexByte_chars.
Qed.

(** What the slow path emits, given the pending (not yet flushed) bytes. *)
Fixpoint slowF (pend rest : bytes) : bytes :=
  match rest with
  | [] => pend
  | b :: r =>
    if 128 <=? b then escaped b ++ slowF [] r
    else if fmtSafeSet b then slowF (pend ++ [b]) r
    else pend ++ escaped b ++ slowF [] r
  end.

Lemma fmtSlowLoop_spec : forall rest s space done pend, bytes_ok rest ->
  s = done ++ pend ++ rest ->
  let '(sp, st) := fmtSlowLoop s space (lenZ done) (lenZ done + lenZ pend) rest in
  (if st <? lenZ s then sp ++ slice s st (lenZ s) else sp) = space ++ slowF pend rest.
Proof.
  induction rest as [|b r IH]; intros s space done pend B ->; cbn [fmtSlowLoop slowF].
  - rewrite !lenZ_app, lenZ_nil, Z.add_0_r, flush. reflexivity.
  - inversion B as [|? ? Hb B']; subst. red in Hb.
    destruct (128 <=? b) eqn:E1; [|destruct (fmtSafeSet b) eqn:E2].
    + specialize (IH (done ++ pend ++ b :: r) (space ++ [92; 120] ++ hexByte b) (done ++ pend ++ [b]) [] B').
      rewrite !lenZ_app, lenZ_cons, !lenZ_nil, !Z.add_0_r, Z.add_assoc in IH.
      specialize (IH ltac:(rewrite <- !app_assoc; reflexivity)).
      destruct (fmtSlowLoop _ _ _ _ _).
      rewrite !lenZ_app. rewrite IH. rewrite high_escaped by lia. rewrite <- !app_assoc. reflexivity.
    + specialize (IH (done ++ pend ++ b :: r) space done (pend ++ [b]) B').
      rewrite lenZ_app, lenZ_cons, lenZ_nil, Z.add_0_r, Z.add_assoc in IH.
      specialize (IH ltac:(rewrite <- !app_assoc; reflexivity)).
      destruct (fmtSlowLoop _ _ _ _ _). exact IH.
    + rewrite flush, unsafe_escaped by (auto; lia).
      specialize (IH (done ++ pend ++ b :: r) ((space ++ pend) ++ escaped b) (done ++ pend ++ [b]) [] B').
      rewrite !lenZ_app, lenZ_cons, !lenZ_nil, !Z.add_0_r, Z.add_assoc in IH.
      specialize (IH ltac:(rewrite <- !app_assoc; reflexivity)).
      destruct (fmtSlowLoop _ _ _ _ _).
      rewrite !lenZ_app. rewrite IH, <- !app_assoc. reflexivity.
Qed.

Lemma slowFmt_spec : forall space s, bytes_ok s -> fmtWriteBytesSlowPath space s = space ++ slowF [] s.
Proof.
  intros space s B. unfold fmtWriteBytesSlowPath.
  pose proof (fmtSlowLoop_spec s s space [] [] B eq_refl) as H.
  change (lenZ [] + lenZ []) with 0 in H. change (@lenZ Z []) with 0 in H.
  destruct (fmtSlowLoop _ _ _ _ _) as [sp st]. exact H.
Qed.

Lemma okF_safe : forall c, (c <? 128) && fmtSafeSet c = fmtSafeSet c.
Proof.
  intros. destruct (fmtSafeSet c) eqn:E; [|apply andb_false_r]. apply safe_clear in E. red in E. rewrite andb_true_r. lia.
Qed.

Lemma forallb_ext' : forall (f g : Z -> bool) p, (forall c, f c = g c) -> forallb f p = forallb g p.
Proof. intros f g p H. induction p; cbn; auto. now rewrite H, IHp. Qed.

Lemma fmtWriteBytes_spec : forall space s, bytes_ok s ->
  exists u, fmtWriteBytes space s = space ++ u /\
  ((forallb fmtSafeSet s = true /\ u = s) \/
   (exists p c r, s = p ++ c :: r /\ forallb fmtSafeSet p = true /\ fmtSafeSet c = false /\
      (r = [] /\ u = p \/ r <> [] /\ u = p ++ slowF [] (c :: r)))).
Proof.
  intros space s Hs. unfold fmtWriteBytes.
  destruct (fastLoop_spec (fun c => (c <? 128) && fmtSafeSet c) s space 0 0) as [(p & c & r & E & Hp & Hc & F)|[Hp F]];
  rewrite F; clear F; rewrite (forallb_ext' _ fmtSafeSet _ okF_safe) in Hp.
  - rewrite okF_safe in Hc. rewrite Z.add_0_l. destruct r as [|d r].
    + exists p. rewrite E, lenZ_app. change (lenZ [c]) with 1.
      replace (lenZ p =? lenZ p + 1 - 1) with true by lia.
      split; auto. right. exists p, c, []. auto 10.
    + exists (p ++ slowF [] (c :: d :: r)).
      replace (lenZ p =? lenZ s - 1) with false
        by (rewrite E, lenZ_app, !lenZ_cons; pose proof (lenZ_nonneg r); lia).
      assert (B : bytes_ok (c :: d :: r)) by (rewrite E in Hs; apply Forall_app in Hs; tauto).
      split; [rewrite E, slice_tail, slowFmt_spec by auto; now rewrite <- !app_assoc|].
      right. exists p, c, (d :: r). repeat split; auto. right. split; [discriminate|auto].
  - exists s. split; auto. destruct s as [|c s].
    + reflexivity.
    + rewrite Z.add_0_l, Z.eqb_refl. reflexivity.
Qed.

Lemma escaped_len : forall b, (1 <= List.length (escaped b))%nat.
Proof. intros. unfold escaped. repeat (destruct (_ : bool); [cbn; lia|]). cbn. lia. Qed.

Lemma escaped_all_cons : forall b s, escaped_all (b :: s) = escaped b ++ escaped_all s.
Proof. reflexivity. Qed.

Lemma escaped_all_safe : forall p s, forallb fmtSafeSet p = true -> escaped_all (p ++ s) = p ++ escaped_all s.
Proof.
  induction p as [|a p IH]; intros s H; auto.
  cbn [forallb] in H. apply andb_true_iff in H as [Ha H]. apply safe_clear in Ha.
  cbn [app]. rewrite escaped_all_cons, clear_escaped, IH by auto. reflexivity.
Qed.

Definition fmt_pair (s : bytes) : Prop :=
  exists x a h y, s = x ++ a :: h :: y /\ fmtSafeSet a = true /\ 128 <= h.

Lemma fmt_high : forall b, 128 <= b -> fmtSafeSet b = false.
Proof. intros b H. unfold fmtSafeSet. replace (b <=? 127) with false by lia. now rewrite andb_false_r. Qed.

Lemma slowF_le : forall rest pend, forallb fmtSafeSet pend = true ->
  (List.length (slowF pend rest) <= List.length pend + List.length (escaped_all rest))%nat.
Proof.
  induction rest as [|b r IH]; intros pend Hp; cbn [slowF].
  - cbn. lia.
  - rewrite escaped_all_cons, app_length. destruct (128 <=? b) eqn:E1; [|destruct (fmtSafeSet b) eqn:E2].
    + rewrite app_length. specialize (IH [] eq_refl). cbn in IH. lia.
    + specialize (IH (pend ++ [b])). rewrite forallb_app, Hp in IH. cbn [forallb andb] in IH. rewrite E2 in IH.
      specialize (IH eq_refl). rewrite app_length in IH. cbn [List.length] in IH. pose proof (escaped_len b). lia.
    + rewrite !app_length. specialize (IH [] eq_refl). cbn [List.length] in IH. lia.
Qed.

Lemma slowF_exact : forall rest pend, forallb fmtSafeSet pend = true ->
  ~ fmt_pair (pend ++ rest) -> slowF pend rest = pend ++ escaped_all rest.
Proof.
  induction rest as [|b r IH]; intros pend Hp N; cbn [slowF].
  - cbn. now rewrite app_nil_r.
  - rewrite escaped_all_cons. destruct (128 <=? b) eqn:E1; [|destruct (fmtSafeSet b) eqn:E2].
    + destruct pend as [|a pend].
      * rewrite IH; auto. intros (x & a & h & y & E & Ha & Hh). cbn in E. apply N. cbn.
        exists (b :: x), a, h, y. rewrite E. auto.
      * exfalso. apply N. destruct (exists_last (l := a :: pend)) as (x & a' & E); [discriminate|].
        rewrite E in *. exists x, a', b, r. rewrite <- app_assoc. cbn [app]. repeat split; [|lia].
        rewrite forallb_app in Hp. cbn [forallb] in Hp. now destruct (fmtSafeSet a'), (forallb fmtSafeSet x).
    + rewrite IH.
      * rewrite clear_escaped by now apply safe_clear. rewrite <- app_assoc. reflexivity.
      * rewrite forallb_app, Hp. cbn [forallb andb]. now rewrite E2.
      * rewrite <- app_assoc. exact N.
    + rewrite IH; auto. intros (x & a & h & y & E & Ha & Hh). cbn in E. apply N.
      exists (pend ++ b :: x), a, h, y. rewrite E, <- app_assoc. auto.
Qed.

Lemma slowF_short : forall x rest pend a h y, forallb fmtSafeSet pend = true ->
  rest = x ++ a :: h :: y -> fmtSafeSet a = true -> 128 <= h ->
  (List.length (slowF pend rest) < List.length pend + List.length (escaped_all rest))%nat.
Proof.
  induction x as [|b x IH]; intros rest pend a h y Hp -> Ha Hh.
  - cbn [app slowF]. destruct (128 <=? a) eqn:Ea.
    { rewrite fmt_high in Ha by lia. discriminate. }
    rewrite Ha. replace (128 <=? h) with true by lia. rewrite !escaped_all_cons, !app_length.
    pose proof (slowF_le y [] eq_refl) as L. cbn [List.length] in L. rewrite (clear_escaped a) by now apply safe_clear. cbn [List.length]. lia.
  - cbn [app slowF]. rewrite escaped_all_cons, app_length.
    pose proof (IH (x ++ a :: h :: y) [] a h y eq_refl eq_refl Ha Hh) as L0. cbn [List.length] in L0.
    destruct (128 <=? b) eqn:E1; [|destruct (fmtSafeSet b) eqn:E2].
    + rewrite app_length. lia.
    + specialize (IH (x ++ a :: h :: y) (pend ++ [b]) a h y).
      rewrite forallb_app, Hp in IH. cbn [forallb andb] in IH. rewrite E2 in IH.
      specialize (IH eq_refl eq_refl Ha Hh). rewrite app_length in IH. cbn [List.length] in IH.
      pose proof (escaped_len b). lia.
    + rewrite !app_length. lia.
Qed.

Definition fmt_lossy (s : bytes) : Prop :=
  (exists p c, s = p ++ [c] /\ forallb fmtSafeSet p = true /\ fmtSafeSet c = false) \/
  (exists x c y a h z, s = x ++ c :: y ++ a :: h :: z /\
     fmtSafeSet c = false /\ fmtSafeSet a = true /\ 128 <= h).

Lemma fmt_loses_lossy : forall s, fmt_loses s <-> fmt_lossy s.
Proof.
  intros s. unfold fmt_loses, fmt_lossy. split.
  - intros [(p & c & E & P & C)|(x & c & y & a & h & z & E & C & A & H)].
    + left. exists p, c. split; auto. split; [|now apply safe_clear_f].
      apply forallb_forall. intros b Hb. rewrite Forall_forall in P. apply safe_clear. auto.
    + right. exists x, c, y, a, h, z. rewrite safe_clear_f, safe_clear. auto.
  - intros [(p & c & E & P & C)|(x & c & y & a & h & z & E & C & A & H)].
    + left. exists p, c. split; auto. split; [|now apply safe_clear_f].
      apply Forall_forall. intros b Hb. rewrite forallb_forall in P. apply safe_clear. auto.
    + right. exists x, c, y, a, h, z. rewrite safe_clear_f in C. rewrite safe_clear in A. auto.
Qed.

Lemma fsplit_unique : forall p c r p' c' r', p ++ c :: r = p' ++ c' :: r' ->
  forallb fmtSafeSet p = true -> fmtSafeSet c = false -> forallb fmtSafeSet p' = true -> fmtSafeSet c' = false ->
  p = p' /\ c = c' /\ r = r'.
Proof.
  induction p as [|a p IH]; intros c r p' c' r' E H1 H2 H3 H4; destruct p' as [|a' p']; cbn [app forallb] in *.
  - injection E as -> ->. auto.
  - injection E as -> ->. rewrite H2 in H3. discriminate.
  - injection E as -> E. rewrite H4 in H1. discriminate.
  - injection E as -> E. apply andb_true_iff in H1 as [_ H1], H3 as [_ H3].
    destruct (IH _ _ _ _ _ E H1 H2 H3 H4) as (-> & -> & ->). auto.
Qed.

Lemma ffirst_unsafe : forall x c y p d r, x ++ c :: y = p ++ d :: r ->
  fmtSafeSet c = false -> forallb fmtSafeSet p = true -> exists x', x ++ [c] = p ++ d :: x' .
Proof.
  induction x as [|a x IH]; intros c y p d r E Hc Hp; destruct p as [|a' p]; cbn [app forallb] in *.
  - injection E as -> ->. exists []. auto.
  - injection E as -> ->. rewrite Hc in Hp. discriminate.
  - injection E as -> E. eexists. reflexivity.
  - injection E as -> E. apply andb_true_iff in Hp as [_ Hp].
    destruct (IH _ _ _ _ _ E Hc Hp) as (x' & ->). exists x'. auto.
Qed.

Lemma fmtWriteBytes_iff : forall space s, bytes_ok s ->
  (fmtWriteBytes space s = space ++ escaped_all s <-> ~ fmt_loses s).
Proof.
  intros space s Hs. rewrite fmt_loses_lossy. destruct (fmtWriteBytes_spec space s Hs) as (u & E & C).
  assert (X : fmtWriteBytes space s = space ++ escaped_all s <-> u = escaped_all s).
  { rewrite E. split; [apply app_inv_head|intros ->; auto]. }
  rewrite X. clear X. destruct C as [[Q ->]|(p & c & r & -> & Hp & Hc & C)].
  - assert (escaped_all s = s) as -> by (rewrite <- (app_nil_r s) at 1; rewrite escaped_all_safe by auto; cbn; now rewrite app_nil_r).
    split; auto. intros _ L. rewrite forallb_forall in Q.
    destruct L as [(p & c & -> & _ & Hc)|(x & c & y & a & h & z & -> & Hc & _)];
    rewrite Q in Hc; try discriminate; rewrite in_app_iff; cbn; auto.
  - destruct C as [[-> ->]|[Hr ->]].
    + split.
      * intros K. exfalso. rewrite escaped_all_safe in K by auto.
        apply (f_equal (@List.length Z)) in K. rewrite escaped_all_cons, !app_length in K. pose proof (escaped_len c). cbn [List.length escaped_all flat_map] in K. lia.
      * intros N. exfalso. apply N. left. eauto.
    + rewrite escaped_all_safe by auto. split.
      * intros K L. apply app_inv_head in K.
        destruct L as [(p' & c' & E' & Hp' & Hc')|(x & c' & y & a & h & z & E' & Hc' & Ha & Hh)].
        -- destruct (fsplit_unique _ _ _ _ _ _ E' Hp Hc Hp' Hc') as (_ & _ & ->). auto.
        -- destruct (ffirst_unsafe _ _ _ _ _ _ (eq_sym E') Hc' Hp) as (x' & Ex).
           assert (E2 : p ++ c :: r = p ++ c :: x' ++ y ++ a :: h :: z).
           { rewrite E'. change (c' :: y ++ a :: h :: z) with ([c'] ++ y ++ a :: h :: z).
             rewrite app_assoc, Ex, <- app_assoc. reflexivity. }
           apply app_inv_head in E2. injection E2 as E2.
           pose proof (slowF_short (c :: x' ++ y) (c :: r) [] a h z eq_refl) as W.
           rewrite K in W. rewrite E2 in W. cbn [app] in W. rewrite <- app_assoc in W.
           specialize (W eq_refl Ha Hh). cbn [List.length] in W. lia.
      * intros N. f_equal. rewrite slowF_exact; auto.
        intros (x & a & h & y & E' & Ha & Hh). cbn [app] in E'. apply N. right.
        destruct x as [|c' x].
        -- cbn in E'. injection E' as -> _. congruence.
        -- cbn in E'. injection E' as <- ->. exists p, c, x, a, h, y. auto.
Qed.
