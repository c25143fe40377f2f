(** Lemmas for C127. *)
From Verif Require Import Base NameIndexModel NameIndexSpec.
Open Scope Z_scope.

Lemma blank_iff : forall c, ((c =? 9) || (c =? 11) || (c =? 12) || (c =? 13) || (c =? 32)) = true <-> blank c.
Proof.
  intros c. unfold blank. cbn [In]. rewrite !orb_true_iff, !Z.eqb_eq. intuition auto.
Qed.
Lemma digit_iff : forall c, ((48 <=? c) && (c <=? 57)) = true <-> digit c.
Proof. intros c. unfold digit. rewrite andb_true_iff, !Z.leb_le. tauto. Qed.

Lemma skip_app : forall sp s, Forall blank sp -> skipSpace (sp ++ s) = skipSpace s.
Proof. induction 1 as [|c sp B _ IH]; [reflexivity|]. cbn [app skipSpace]. apply blank_iff in B. now rewrite B. Qed.
Lemma skip_stop : forall c s, ~ blank c -> skipSpace (c :: s) = c :: s.
Proof. intros c s B. cbn [skipSpace]. destruct (_ || _) eqn:E; [apply blank_iff in E; contradiction|reflexivity]. Qed.
Lemma skip_split : forall s, exists sp, Forall blank sp /\ s = sp ++ skipSpace s.
Proof.
  induction s as [|c s (sp & B & E)]; [exists []; auto|]. cbn [skipSpace]. destruct (_ || _) eqn:X.
  - apply blank_iff in X. exists (c :: sp). split; [now constructor|]. cbn. now f_equal.
  - exists []. auto.
Qed.

Lemma take_split : forall s, Forall digit (fst (takeDigits s)) /\ s = fst (takeDigits s) ++ snd (takeDigits s) /\
  forall c t, snd (takeDigits s) = c :: t -> ~ digit c.
Proof.
  induction s as [|c s (D & E & N)]; [repeat split; [constructor|discriminate]|]. cbn [takeDigits]. destruct (_ && _) eqn:X.
  - destruct (takeDigits s) as [d r]. cbn [fst snd] in *. apply digit_iff in X. split; [now constructor|]. split; auto. cbn. now f_equal.
  - cbn [fst snd]. split; [constructor|]. split; [reflexivity|]. intros c' t [= <- <-] H. apply digit_iff in H. congruence.
Qed.
Lemma take_app : forall ds r, Forall digit ds -> (forall c t, r = c :: t -> ~ digit c) -> takeDigits (ds ++ r) = (ds, r).
Proof.
  induction 1 as [|c ds D _ IH]; intros N.
  - destruct r as [|c r]; [reflexivity|]. cbn [app takeDigits]. destruct (_ && _) eqn:X; [|reflexivity]. apply digit_iff in X. now elim (N c r).
  - cbn [app takeDigits]. apply digit_iff in D. now rewrite D, IH.
Qed.

Lemma parse_denotes : forall ds, Forall digit ds -> denotes ds (parse10 ds).
Proof.
  induction ds as [|d ds IH] using rev_ind; intros D; [constructor|]. apply Forall_app in D. destruct D as [D E]. unfold parse10. rewrite fold_left_app. cbn [fold_left].
  rewrite Z.mul_comm. apply den_snoc; [now apply IH|]. now inversion E.
Qed.
Lemma denotes_parse : forall ds v, denotes ds v -> parse10 ds = v /\ Forall digit ds.
Proof.
  induction 1 as [|ds d v H [E F] D]; [split; [reflexivity|constructor]|]. split.
  - unfold parse10 in *. rewrite fold_left_app. cbn [fold_left]. rewrite E. lia.
  - apply Forall_app. auto.
Qed.
Lemma denotes_pos : forall ds v, denotes ds v -> 0 <= v.
Proof. induction 1 as [|ds d v H IH D]; [lia|]. unfold digit in D. lia. Qed.

(** scanInt reads what [accepted] allows *)
Lemma scanInt_iff : forall s rest v, scanInt s = Some (rest, v) <->
  exists sg ds u, s = sg ++ ds ++ rest /\ ds <> [] /\ denotes ds u /\ (sg = [] /\ v = u \/ sg = [43] /\ v = u \/ sg = [45] /\ v = - u) /\ int64 v /\
    (forall c t, rest = c :: t -> ~ digit c).
Proof.
  assert (Body : forall (neg : bool) s rest v, match takeDigits s with
      | ([], _) => None
      | (ds, rest) => let v := if neg then - parse10 ds else parse10 ds in if (- 2 ^ 63 <=? v) && (v <? 2 ^ 63) then Some (rest, v) else None
      end = Some (rest, v) <->
    exists ds u, s = ds ++ rest /\ ds <> [] /\ denotes ds u /\ v = (if neg then - u else u) /\ int64 v /\ (forall c t, rest = c :: t -> ~ digit c)).
  { intros neg s rest v. destruct (take_split s) as (D & E & N). split.
    - intros H. destruct (takeDigits s) as [[|d ds] r]; [discriminate|]. cbn [fst snd] in *. cbv zeta in H. destruct (_ && _) eqn:R in H; [|discriminate].
      injection H as <- <-. exists (d :: ds), (parse10 (d :: ds)). split; auto. split; [discriminate|]. split; [now apply parse_denotes|]. split; [reflexivity|].
      split; auto. unfold int64. lia.
    - intros (ds & u & -> & P & H & -> & R & M). destruct (denotes_parse _ _ H) as [<- F]. rewrite take_app by auto. destruct ds as [|d ds]; [congruence|].
      cbv zeta. unfold int64 in R. replace ((- 2 ^ 63 <=? _) && _) with true by lia. reflexivity. }
  intros s rest v. unfold scanInt. destruct s as [|c s].
  { eapply iff_trans; [exact (Body false [] rest v)|]. split.
    - intros (ds & u & E & P & H & V & R & M). exists [], ds, u. repeat split; auto; apply R.
    - intros (sg & ds & u & E & P & _). exfalso. symmetry in E. apply app_eq_nil in E. destruct E as [_ E]. apply app_eq_nil in E. tauto. }
  assert (S : acceptSign (c :: s) =
    if c =? 43 then (false, s) else if c =? 45 then (true, s) else (false, c :: s)).
  { unfold acceptSign. destruct (Z.eqb_spec c 43) as [->|A]; [reflexivity|]. destruct (Z.eqb_spec c 45) as [->|B]; [reflexivity|].
    destruct c as [|c|c]; try reflexivity. do 6 (destruct c; try reflexivity; try contradiction). }
  rewrite S. clear S. destruct (Z.eqb_spec c 43) as [->|A]; [|destruct (Z.eqb_spec c 45) as [->|B]]; [eapply iff_trans; [exact (Body false s rest v)|]|eapply iff_trans; [exact (Body true s rest v)|]|eapply iff_trans; [exact (Body false (c :: s) rest v)|]]; clear Body.
  - split.
    + intros (ds & u & -> & P & H & V & R & M). exists [43], ds, u. repeat split; auto; apply R.
    + intros (sg & ds & u & E & P & H & [[-> V]|[[-> V]|[-> V]]] & R & M).
      * exfalso. destruct ds as [|d ds]; [congruence|]. injection E as <- E. destruct (denotes_parse _ _ H) as [_ F]. inversion F as [|? ? X]; subst. unfold digit in X. lia.
      * injection E as ->. exists ds, u. repeat split; auto; apply R.
      * discriminate.
  - split.
    + intros (ds & u & -> & P & H & V & R & M). exists [45], ds, u. repeat split; auto; apply R.
    + intros (sg & ds & u & E & P & H & [[-> V]|[[-> V]|[-> V]]] & R & M).
      * exfalso. destruct ds as [|d ds]; [congruence|]. injection E as <- E. destruct (denotes_parse _ _ H) as [_ F]. inversion F as [|? ? X]; subst. unfold digit in X. lia.
      * discriminate.
      * injection E as ->. exists ds, u. repeat split; auto; apply R.
  - split.
    + intros (ds & u & E & P & H & V & R & M). exists [], ds, u. repeat split; auto; apply R.
    + intros (sg & ds & u & E & P & H & [[-> V]|[[-> V]|[-> V]]] & R & M).
      * exists ds, u. repeat split; auto; apply R.
      * injection E as -> _. congruence.
      * injection E as -> _. congruence.
Qed.

(** A literal of the format *)
Lemma sscanf_lit : forall c f input n idx, c <> 37 ->
  sscanf (c :: f) input n idx = match input with c' :: input => if c =? c' then sscanf f input n idx else None | [] => None end.
Proof.
  intros c f input n idx N. cbn [sscanf]. destruct c as [|c|c]; try reflexivity. do 6 (destruct c; try reflexivity; try contradiction).
Qed.
Lemma sscanf_d : forall f input idx, sscanf (37 :: 100 :: f) input 0%nat idx =
  match scanInt (skipSpace input) with None => None | Some (rest, v) => sscanf f rest 1%nat v end.
Proof. reflexivity. Qed.
Lemma sscanf_pre : forall pre f input n idx r, Forall plain pre ->
  (sscanf (pre ++ f) input n idx = Some r <-> exists rest, input = pre ++ rest /\ sscanf f rest n idx = Some r).
Proof.
  induction pre as [|c pre IH]; intros f input n idx r P.
  - cbn. split; [eauto|]. intros (rest & -> & H). exact H.
  - inversion P as [|? ? C P']; subst. cbn [app]. rewrite sscanf_lit by (apply C). destruct input as [|c' input].
    + split; [discriminate|]. intros (rest & E & _). discriminate.
    + destruct (Z.eqb_spec c c') as [<-|N].
      * rewrite IH by auto. split.
        -- intros (rest & -> & H). exists rest. auto.
        -- intros (rest & E & H). injection E as ->. exists rest. auto.
      * split; [discriminate|]. intros (rest & E & _). injection E as E _. congruence.
Qed.

Lemma sscanf_iff : forall pre suf name r, Forall plain pre -> Forall plain suf ->
  (sscanf (pre ++ bs "%d" ++ suf) name 0%nat 0 = Some r <-> fst r = 1%nat /\ accepted pre suf (snd r) name).
Proof.
  intros pre suf name [n v] P S. rewrite sscanf_pre by auto. change (bs "%d" ++ suf) with (37 :: 100 :: suf). cbn [fst snd]. split.
  - intros (input & -> & H). rewrite sscanf_d in H. destruct (scanInt (skipSpace input)) as [[rest u]|] eqn:E; [|discriminate].
    rewrite <- (app_nil_r suf) in H. apply sscanf_pre in H; auto. destruct H as (rest' & -> & H). cbn in H. injection H as <- <-. split; auto.
    apply scanInt_iff in E. destruct E as (sg & ds & w & E & D & DE & V & R & M). destruct (skip_split input) as (sp & B & I).
    exists sp, sg, ds, w, rest'. split; [|repeat split; auto; apply R]. rewrite I, E. reflexivity.
  - intros (-> & sp & sg & ds & u & rest & -> & B & D & DE & V & R & M). exists (sp ++ sg ++ ds ++ suf ++ rest). split; auto. rewrite sscanf_d, skip_app by auto.
    assert (K : skipSpace (sg ++ ds ++ suf ++ rest) = sg ++ ds ++ suf ++ rest).
    { destruct V as [[-> _]|[[-> _]|[-> _]]].
      - destruct ds as [|d ds]; [congruence|]. apply skip_stop. destruct (denotes_parse _ _ DE) as [_ F]. inversion F as [|? ? X]; subst.
        unfold digit, blank in *. cbn [In]. intros HB. lia.
      - apply skip_stop. unfold blank. cbn [In]. lia.
      - apply skip_stop. unfold blank. cbn [In]. lia. }
    rewrite K. assert (Sc : scanInt (sg ++ ds ++ suf ++ rest) = Some (suf ++ rest, v)).
    { apply scanInt_iff. exists sg, ds, u. repeat split; auto; apply R. }
    rewrite Sc. rewrite <- (app_nil_r suf) at 1. apply sscanf_pre; auto. exists rest. split; auto.
Qed.

Lemma accepted_fun : forall pre suf name v v', Forall plain pre -> Forall plain suf -> accepted pre suf v name -> accepted pre suf v' name -> v = v'.
Proof.
  intros pre suf name v v' P S A B. pose proof (proj2 (sscanf_iff pre suf name (1%nat, v) P S) (conj eq_refl A)) as X.
  pose proof (proj2 (sscanf_iff pre suf name (1%nat, v') P S) (conj eq_refl B)) as Y. congruence.
Qed.
