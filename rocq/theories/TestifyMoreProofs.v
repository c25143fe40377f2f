(** Lemmas about the rest of test/testify/assert. *)
From Verif Require Import Base TestifyModel TestifySpec TestifyProofs TestifyMoreModel TestifyMoreSpec.
From Coq Require Import Lia.
Open Scope Z_scope.
Open Scope list_scope.

(** * nil and types *)
Lemma isNil_spec : forall o, wellKinded o -> ~ isUnsafePointer o -> (isNil o = true <-> nilValue o).
Proof.
  intros o W U. destruct W; cbn -[Z.leb].
  - split; [constructor|auto].
  - rewrite andb_false_r. split; [discriminate|inversion 1].
  - rewrite andb_false_r. split; [discriminate|inversion 1].
  - cbn in H. destruct H as [<-|[<-|[<-|[<-|[<-|[<-|[]]]]]]]; cbn.
    1,2,3,5: split; [discriminate|inversion 1].
    + rewrite Z.eqb_eq. split; [intros ->; constructor|inversion 1; auto].
    + exfalso. apply U. red. eauto.
  - split; [discriminate|inversion 1].
  - split; [discriminate|inversion 1].
  - destruct l; (split; [discriminate|inversion 1]) || (split; [constructor|auto]).
  - destruct b; (split; [discriminate|inversion 1]) || (split; [constructor|auto]).
  - destruct l; (split; [discriminate|inversion 1]) || (split; [constructor|auto]).
  - destruct n; (split; [discriminate|inversion 1]) || (split; [constructor|auto]).
  - destruct p; (split; [discriminate|inversion 1]) || (split; [constructor|auto]).
Qed.
Lemma sameType_spec : forall a b, sameType a b = true <-> ofSameType b a.
Proof.
  intros [a|] [b|]; cbn; split; intros H; try discriminate; try constructor; try (inversion H; fail).
  - apply Z.eqb_eq in H. auto.
  - inversion H; subst. now apply Z.eqb_eq.
Qed.

(** * Responses *)
Definition recStep (rw : recorder) (a : haction) : recorder := match a with HWriteHeader c => recWriteHeader rw c | HWrite b => recWrite rw b end.
Lemma rec_body : forall acts rw, rBody (fold_left recStep acts rw) = rBody rw ++ bodyOf acts.
Proof.
  induction acts as [|a acts IH]; intros rw; cbn [fold_left bodyOf]; [now rewrite app_nil_r|]. rewrite IH.
  destruct a as [c|b]; cbn [recStep]; unfold recWrite, recWriteHeader; destruct (rWrote rw); cbn; now rewrite <- ?app_assoc.
Qed.
Lemma rec_code : forall acts rw, rWrote rw = true -> rCode (fold_left recStep acts rw) = rCode rw.
Proof.
  induction acts as [|a acts IH]; intros rw W; cbn [fold_left]; auto.
  assert (E : rWrote (recStep rw a) = true /\ rCode (recStep rw a) = rCode rw).
  { destruct a; cbn [recStep]; unfold recWrite, recWriteHeader; rewrite W; cbn; auto. }
  destruct E as [E1 E2]. rewrite IH; auto.
Qed.
Lemma record_body : forall acts, rBody (record_ acts) = bodyOf acts.
Proof. intros acts. unfold record_. change (rBody (fold_left recStep acts newRecorder) = bodyOf acts). now rewrite rec_body. Qed.
Lemma record_code : forall acts c, status acts c -> rCode (record_ acts) = c.
Proof.
  intros acts c H. unfold record_. change (rCode (fold_left recStep acts newRecorder) = c).
  destruct H; auto; cbn [fold_left]; rewrite rec_code; auto.
Qed.
Lemma status_total : forall acts, exists c, status acts c.
Proof. intros [|[c|b] acts]; eexists; constructor. Qed.
Lemma status_fun : forall acts c c', status acts c -> status acts c' -> c = c'.
Proof. intros acts c c' H H'. apply record_code in H. apply record_code in H'. congruence. Qed.

(** * Queries *)
Definition upto35 : bytes -> bytes := fix upto (s : bytes) : bytes := match s with [] => [] | d :: s => if d =? 35 then [] else d :: upto s end.
Lemma upto35_id : forall s, ~ In 35 s -> upto35 s = s.
Proof.
  induction s as [|c s IH]; intros N; cbn; auto. destruct (Z.eqb_spec c 35) as [->|]; [exfalso; apply N; now left|].
  f_equal. apply IH. intros I. apply N. now right.
Qed.

Lemma upto35_app : forall s t, ~ In 35 s -> upto35 (s ++ t) = s ++ upto35 t.
Proof.
  induction s as [|c s IH]; intros t N; cbn; auto. destruct (Z.eqb_spec c 35) as [->|]; [exfalso; apply N; now left|].
  f_equal. apply IH. intros I. apply N. now right.
Qed.
Lemma upto35_stop : forall s t, In 35 s -> upto35 (s ++ t) = upto35 s.
Proof.
  induction s as [|c s IH]; intros t I; [destruct I|]. cbn. destruct (Z.eqb_spec c 35); auto. destruct I as [I|I]; [congruence|]. f_equal. auto.
Qed.
Lemma queryOf_cons : forall c u, queryOf (c :: u) = if c =? 35 then None else if c =? 63 then Some (upto35 u) else queryOf u.
Proof. reflexivity. Qed.
Lemma query_plain : forall u q, ~ In 35 u -> ~ In 63 u -> ~ In 35 q -> queryOf (u ++ [63] ++ q) = Some q.
Proof.
  induction u as [|c u IH]; intros q N M Q.
  - cbn [app]. rewrite queryOf_cons. cbn. now rewrite upto35_id.
  - cbn [app]. rewrite queryOf_cons. destruct (Z.eqb_spec c 35) as [->|]; [exfalso; apply N; now left|].
    destruct (Z.eqb_spec c 63) as [->|]; [exfalso; apply M; now left|]. apply IH; auto; intros I; [apply N|apply M]; now right.
Qed.
Lemma query_more : forall u q q0, ~ In 35 u -> ~ In 35 q -> queryOf u = Some q0 -> queryOf (u ++ [63] ++ q) = Some (q0 ++ [63] ++ q).
Proof.
  induction u as [|c u IH]; intros q q0 N Q H; [discriminate|].
  cbn [app]. rewrite queryOf_cons in *. destruct (Z.eqb_spec c 35) as [->|]; [discriminate|].
  destruct (Z.eqb_spec c 63) as [->|].
  - injection H as <-. assert (NU : ~ In 35 u) by (intros I; apply N; now right). rewrite upto35_app by auto. rewrite (upto35_id u) by auto.
    f_equal. f_equal. rewrite upto35_id; auto. intros [I|I]; [discriminate|auto].
  - apply IH; auto. intros I. apply N. now right.
Qed.
Lemma query_hash : forall u t, In 35 u -> queryOf (u ++ t) = queryOf u.
Proof.
  induction u as [|c u IH]; intros t I; [destruct I|]. cbn [app]. rewrite !queryOf_cons. destruct (Z.eqb_spec c 35) as [->|]; auto.
  destruct I as [I|I]; [congruence|]. destruct (c =? 63); auto. now rewrite upto35_stop.
Qed.
Lemma query_none : forall u, ~ In 35 u -> (queryOf u = None <-> ~ In 63 u).
Proof.
  induction u as [|c u IH]; intros N; [cbn; tauto|]. rewrite queryOf_cons. destruct (Z.eqb_spec c 35) as [->|]; [exfalso; apply N; now left|].
  destruct (Z.eqb_spec c 63) as [->|].
  - split; [discriminate|]. intros H. exfalso. apply H. now left.
  - rewrite IH by (intros I; apply N; now right). cbn. intuition.
Qed.

(** * Paths and names *)
Lemma split1_nonempty : forall sep s, split1 sep s <> [].
Proof. intros sep [|c s]; cbn; [discriminate|]. destruct (c =? sep); [discriminate|]. destruct (split1 sep s); discriminate. Qed.
Lemma split1_plain : forall sep s, ~ In sep s -> split1 sep s = [s].
Proof.
  induction s as [|c s IH]; intros N; cbn; auto. destruct (Z.eqb_spec c sep) as [->|]; [exfalso; apply N; now left|].
  rewrite IH; auto. intros I. apply N. now right.
Qed.
Lemma split1_app : forall sep a s, split1 sep (a ++ [sep] ++ s) = split1 sep a ++ split1 sep s.
Proof.
  induction a as [|c a IH]; intros s; cbn [app split1].
  - cbn. now rewrite Z.eqb_refl.
  - cbn [app] in IH. rewrite IH. destruct (c =? sep); auto.
    destruct (split1 sep a) as [|p r] eqn:E; [now apply split1_nonempty in E|]. reflexivity.
Qed.
Lemma split1_in : forall (sep : Z) (s : bytes), In sep s -> exists a b, s = a ++ [sep] ++ b /\ ~ In sep b.
Proof.
  intros sep s I. induction s as [|c s IH]; [destruct I|].
  destruct (in_dec Z.eq_dec sep s) as [J|J].
  - destruct (IH J) as (a & b & -> & N). exists (c :: a), b. auto.
  - destruct I as [->|I]; [|contradiction]. exists [], s. auto.
Qed.
Lemma last_app_ne : forall {A} (a b : list A) d, b <> [] -> last (a ++ b) d = last b d.
Proof.
  intros A a b d N. induction a as [|x a IH]; auto. cbn [app]. rewrite <- IH. cbn. destruct (a ++ b) eqn:E; auto.
  apply app_eq_nil in E. destruct E. contradiction.
Qed.
Lemma base_spec : forall n b, baseName n b -> last (split1 46 n) [] = b.
Proof.
  intros n b H. destruct H.
  - now rewrite split1_plain.
  - rewrite split1_app, (split1_plain 46 n) by auto. now rewrite last_last.
Qed.
Lemma base_total : forall n, exists b, baseName n b.
Proof.
  intros n. destruct (in_dec Z.eq_dec 46 n) as [I|I].
  - destruct (split1_in _ _ I) as (a & b & -> & N). exists b. now constructor.
  - exists n. now constructor.
Qed.
Lemma dir_split : forall dir file f, inDirectory dir file f -> exists pre, split1 47 f = pre ++ [dir; file].
Proof.
  intros dir file f H. destruct H.
  - exists []. rewrite split1_app, !split1_plain by auto. reflexivity.
  - exists (split1 47 pre). rewrite split1_app, split1_app, (split1_plain 47 dir), (split1_plain 47 file) by auto. reflexivity.
Qed.
Lemma dir_total : forall f, In 47 f -> exists dir file, inDirectory dir file f.
Proof.
  intros f I. destruct (split1_in _ _ I) as (a & file & -> & N). destruct (in_dec Z.eq_dec 47 a) as [J|J].
  - destruct (split1_in _ _ J) as (pre & dir & -> & M). exists dir, file. rewrite <- !app_assoc. now constructor.
  - exists a, file. now constructor.
Qed.

(** The line CallerInfo adds for a frame *)
Definition lineOf (f : frame) : list bytes :=
  let parts := split1 47 (fFile f) in
  let file := last parts [] in
  if (1 <? List.length parts)%nat then
    let dir := nth (List.length parts - 2) parts [] in
    if (negb (bytesEqual dir (bs "assert")) && negb (bytesEqual dir (bs "mock")) && negb (bytesEqual dir (bs "require")))
       || bytesEqual file (bs "mock_test.go")
    then [file ++ [58] ++ fLine f] else []
  else [].
Lemma hidden_spec : forall dir, (negb (bytesEqual dir (bs "assert")) && negb (bytesEqual dir (bs "mock")) && negb (bytesEqual dir (bs "require"))) = true <-> ~ In dir hiddenDirs.
Proof.
  intros dir. rewrite !andb_true_iff, !negb_true_iff, <- !not_true_iff_false, !bytesEqual_eq. unfold hiddenDirs. cbn [In]. intuition.
Qed.
Lemma lineOf_spec : forall f ls, callerLine f ls -> lineOf f = ls.
Proof.
  intros f ls H.
  assert (G : forall dir file, inDirectory dir file (fFile f) ->
    lineOf f = if (negb (bytesEqual dir (bs "assert")) && negb (bytesEqual dir (bs "mock")) && negb (bytesEqual dir (bs "require"))) || bytesEqual file (bs "mock_test.go")
               then [file ++ [58] ++ fLine f] else []).
  { intros dir file D. destruct (dir_split _ _ _ D) as (pre & E). unfold lineOf. rewrite E.
    change [dir; file] with ([dir] ++ [file]). rewrite (app_assoc pre [dir] [file]), last_last. rewrite <- app_assoc.
    rewrite app_length. cbn [List.length app].
    replace (1 <? List.length pre + 2)%nat with true by (symmetry; apply Nat.ltb_lt; lia).
    replace (List.length pre + 2 - 2)%nat with (List.length pre) by lia.
    rewrite app_nth2, Nat.sub_diag by lia. reflexivity. }
  destruct H as [f dir file D C|f dir file D I N|f N].
  - rewrite (G _ _ D). destruct C as [C| ->].
    + apply hidden_spec in C. now rewrite C.
    + rewrite (proj2 (bytesEqual_eq (bs "mock_test.go") _) eq_refl). now rewrite orb_true_r.
  - rewrite (G _ _ D). destruct (_ || _) eqn:E; auto. exfalso. apply orb_true_iff in E. destruct E as [E|E].
    + apply hidden_spec in E. contradiction.
    + apply bytesEqual_eq in E. contradiction.
  - unfold lineOf. rewrite split1_plain by auto. reflexivity.
Qed.
Lemma callerLine_total : forall f, exists ls, callerLine f ls.
Proof.
  intros f. destruct (in_dec Z.eq_dec 47 (fFile f)) as [I|I]; [|exists []; now constructor 3].
  destruct (dir_total _ I) as (dir & file & D).
  destruct (in_dec (list_eq_dec Z.eq_dec) dir hiddenDirs) as [H|H]; [|eexists; econstructor; eauto].
  destruct (list_eq_dec Z.eq_dec file (bs "mock_test.go")) as [M|M]; [eexists; econstructor; eauto|].
  eexists; econstructor 2; eauto.
Qed.

(** * Test names *)
Lemma hasPrefix_app : forall p r, hasPrefix (p ++ r) p = true.
Proof. induction p as [|c p IH]; intros r; [destruct r; reflexivity|]. cbn [app hasPrefix]. now rewrite Z.eqb_refl, IH. Qed.
Lemma isTest_spec : forall low name prefix, isTest low name prefix = true <-> exists rest, name = prefix ++ rest /\ (rest = [] \/ low rest = false).
Proof.
  intros low name prefix. unfold isTest. destruct (hasPrefix name prefix) eqn:H; cbn [negb].
  - apply hasPrefix_spec in H. destruct H as (rest & ->).
    rewrite app_length, skipn_app, skipn_all, Nat.sub_diag. cbn [app skipn].
    destruct (Nat.eqb_spec (List.length prefix + List.length rest) (List.length prefix)) as [E|E].
    + destruct rest; [|cbn in E; lia]. split; eauto.
    + rewrite negb_true_iff. split; [eauto|]. intros (r & A & B). apply app_inv_head in A. subst r. destruct B as [->|]; auto. cbn in E. lia.
  - split; [discriminate|]. intros (r & -> & _). rewrite hasPrefix_app in H. discriminate.
Qed.
Lemma testName_spec : forall low b, (isTest low b (bs "Test") || isTest low b (bs "Benchmark") || isTest low b (bs "Example")) = true <-> testName low b.
Proof.
  intros low b. rewrite !orb_true_iff, !isTest_spec. split.
  - intros [[(r & -> & H)|(r & -> & H)]|(r & -> & H)]; constructor; auto; cbn; auto.
  - intros H. destruct H as [p r [<-|[<-|[<-|[]]]] C]; eauto 6.
Qed.

(** * CallerInfo *)
Definition stops (low : bytes -> bool) (f : frame) (name : bytes) : bool :=
  let b := last (split1 46 name) [] in isTest low b (bs "Test") || isTest low b (bs "Benchmark") || isTest low b (bs "Example").
Lemma callerLoop_step : forall low f r callers,
  callerLoop low (f :: r) callers =
    if bytesEqual (fFile f) (bs "<autogenerated>") then callers else
    match fName f with
    | None => callers
    | Some name => if bytesEqual name (bs "testing.tRunner") then callers else
        if stops low f name then callers ++ lineOf f else callerLoop low r (callers ++ lineOf f)
    end.
Proof.
  intros. cbn [callerLoop]. destruct (bytesEqual (fFile f) _); auto. destruct (fName f); auto. destruct (bytesEqual b _); auto.
  unfold lineOf, stops. destruct (1 <? _)%nat; [|now rewrite app_nil_r]. destruct (_ || bytesEqual (last _ _) _); auto. now rewrite app_nil_r.
Qed.
Lemma boundary_dec : forall f, {boundary f} + {~ boundary f}.
Proof.
  intros f. unfold boundary. destruct (list_eq_dec Z.eq_dec (fFile f) (bs "<autogenerated>")); [left; auto|].
  destruct (fName f) as [n'|]; [|left; auto]. destruct (list_eq_dec Z.eq_dec n' (bs "testing.tRunner")); [left; right; right; congruence|].
  right. intros [H|[H|H]]; congruence.
Qed.
Lemma boundary_loop : forall low f r callers, boundary f -> callerLoop low (f :: r) callers = callers.
Proof.
  intros low f r callers B. rewrite callerLoop_step. destruct (bytesEqual _ _) eqn:E; auto.
  destruct B as [B|[B|B]].
  - apply bytesEqual_eq in B. congruence.
  - now rewrite B.
  - rewrite B. now rewrite (proj2 (bytesEqual_eq (bs "testing.tRunner") _) eq_refl).
Qed.
Lemma inner_loop : forall low f r callers, ~ boundary f -> exists name, fName f = Some name /\ (stops low f name = true <-> isTestFrame low f) /\
  callerLoop low (f :: r) callers = if stops low f name then callers ++ lineOf f else callerLoop low r (callers ++ lineOf f).
Proof.
  intros low f r callers B. rewrite callerLoop_step.
  destruct (bytesEqual (fFile f) _) eqn:E; [exfalso; apply B; left; now apply bytesEqual_eq|].
  destruct (fName f) as [name|] eqn:N; [|exfalso; apply B; right; now left].
  destruct (bytesEqual name _) eqn:T; [exfalso; apply B; right; right; apply bytesEqual_eq in T; congruence|].
  exists name. split; auto. split; auto. unfold stops. rewrite testName_spec. unfold isTestFrame. split.
  - intros H. destruct (base_total name) as (b & Hb). rewrite (base_spec _ _ Hb) in H. eauto.
  - intros (n & b & E1 & E2 & E3). rewrite N in E1. injection E1 as <-. now rewrite (base_spec _ _ E2).
Qed.
Lemma callerLoop_spec : forall low stack own, testStack low stack own -> forall ls, Forall2 callerLine own ls -> forall callers,
  callerLoop low stack callers = callers ++ List.concat ls.
Proof.
  intros low stack own T. induction T as [|f r B|f r B I|f r own B I T IH]; intros ls F callers.
  - inversion F; subst. cbn. now rewrite app_nil_r.
  - inversion F; subst. rewrite boundary_loop by auto. cbn. now rewrite app_nil_r.
  - inversion F as [|x l y ls' H1 H2]; subst. inversion H2; subst. destruct (inner_loop low f r callers B) as (name & _ & S1 & ->).
    apply S1 in I. rewrite I. cbn. rewrite app_nil_r. f_equal. now apply lineOf_spec.
  - inversion F as [|x l y ls' H1 H2]; subst. destruct (inner_loop low f r callers B) as (name & _ & S1 & ->).
    destruct (stops low f name); [exfalso; apply I; now apply S1|]. rewrite (IH _ H2). cbn. rewrite app_assoc. f_equal. f_equal. now apply lineOf_spec.
Qed.
Lemma testStack_total : forall low stack, exists own, testStack low stack own.
Proof.
  induction stack as [|f r [own IH]]; [exists []; constructor|].
  destruct (boundary_dec f) as [B|B]; [exists []; now constructor|].
  destruct (inner_loop low f r [] B) as (name & _ & S1 & _). destruct (stops low f name) eqn:E.
  - exists [f]. constructor 3; auto. now apply S1.
  - exists (f :: own). constructor 4; auto. rewrite <- S1. discriminate.
Qed.

(** * Messages do not change what an assertion decides *)
Lemma good_fail : forall sprintf msgs, goodMessages msgs -> Fail sprintf msgs = Fail sprintf [].
Proof. intros. rewrite !Fail_good; auto. constructor. Qed.
Lemma subsetLoop_good : forall sprintf deq tn msgs, goodMessages msgs -> forall sub whole,
  subsetLoop sprintf deq tn whole sub msgs = subsetLoop sprintf deq tn whole sub [].
Proof.
  intros sprintf deq tn msgs G. induction sub as [|x sub IH]; intros whole; cbn [subsetLoop]; auto.
  rewrite IH, (good_fail _ msgs G). reflexivity.
Qed.
Lemma notSubsetLoop_good : forall sprintf deq tn msgs, goodMessages msgs -> forall sub whole,
  notSubsetLoop sprintf deq tn whole sub msgs = notSubsetLoop sprintf deq tn whole sub [].
Proof.
  intros sprintf deq tn msgs G. induction sub as [|x sub IH]; intros whole; cbn [notSubsetLoop]; rewrite (good_fail _ msgs G); auto.
  rewrite IH. reflexivity.
Qed.
Lemma matchLoop_good : forall sprintf deq msgs, goodMessages msgs -> forall a b, matchLoop sprintf deq a b msgs = matchLoop sprintf deq a b [].
Proof.
  intros sprintf deq msgs G. induction a as [|x a IH]; intros b; cbn [matchLoop]; auto. rewrite (good_fail _ msgs G). destruct (markOne _ _ _); auto.
Qed.
Lemma pairLoop_ext : forall f g, (forall a e, f a e = g a e) -> forall la le, pairLoop f la le = pairLoop g la le.
Proof.
  intros f g E. induction la as [|a la IH]; intros le; cbn [pairLoop]; auto. destruct le as [|e le]; auto. rewrite E. destruct (g a e); cbn; auto.
  rewrite IH. reflexivity.
Qed.
Lemma InDelta_good : forall sprintf msgs, goodMessages msgs -> forall a e d, InDelta sprintf a e d msgs = InDelta sprintf a e d [].
Proof. intros sprintf msgs G a e d. unfold InDelta. now rewrite (good_fail _ msgs G). Qed.
Lemma mapLoop_good : forall sprintf keyEq ka msgs, goodMessages msgs -> forall keys et at_ e a d,
  mapLoop sprintf keyEq ka et at_ keys e a d msgs = mapLoop sprintf keyEq ka et at_ keys e a d [].
Proof.
  intros sprintf keyEq ka msgs G. induction keys as [|k keys IH]; intros et at_ e a d; cbn [mapLoop]; auto.
  rewrite (good_fail _ msgs G), IH. destruct (ka et at_); cbn; auto. destruct (mapIndex keyEq e k); auto. destruct (mapIndex keyEq a k); auto.
  rewrite InDelta_good; auto.
Qed.
