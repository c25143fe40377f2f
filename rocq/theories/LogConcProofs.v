(** Proofs for C138. *)
From Verif Require Import Base MsgfmtModel CountlogModel LogConcModel LogConcSpec.

Lemma bytes_eqb_eq : forall a b, bytes_eqb a b = true -> a = b.
Proof. intros a b H. unfold bytes_eqb in H. destruct (list_eq_dec Z.eq_dec a b) as [E|]; [exact E|discriminate H]. Qed.
Lemma bytes_eqb_refl : forall a, bytes_eqb a a = true.
Proof. intro a. unfold bytes_eqb. destruct (list_eq_dec Z.eq_dec a a) as [_|N]; [reflexivity|contradiction]. Qed.
Lemma mine_app : forall g a b, mine g (a ++ b) = mine g a ++ mine g b.
Proof. intros. unfold mine. apply filter_app. Qed.
Lemma mine_in : forall g o all, In o (mine g all) -> In o all.
Proof. intros g o all H. unfold mine in H. apply filter_In in H. tauto. Qed.
Lemma mine_own : forall g l, Forall (fun o => of_call g o = true) l -> mine g l = l.
Proof. induction 1 as [|o l H _ IH]; [reflexivity|]. unfold mine in *. cbn. rewrite H, IH. reflexivity. Qed.
Lemma of_two : forall g v o, of_call g o = true -> v <> g -> of_call v o = false.
Proof. intros g v o H N. destruct o; cbn in *; try discriminate H; apply Nat.eqb_eq in H; subst; apply Nat.eqb_neq; congruence. Qed.
Lemma mine_other : forall g v l, Forall (fun o => of_call g o = true) l -> v <> g -> mine v l = [].
Proof. induction 1 as [|o l H _ IH]; intro N; [reflexivity|]. unfold mine in *. cbn. rewrite (of_two _ _ _ H N). exact (IH N). Qed.

Section Mono.
  Variables all all' : list ob.
  Hypothesis inc : incl all all'.
  Lemma known_mono : forall r, known all r -> known all' r.
  Proof. intros r [g H]. exists g. exact (inc _ H). Qed.
  Lemma low_mono : forall c, low all c -> low all' c.
  Proof. intros c [H|(l & H & L)]; [left; exact H|right; exists l; split; [exact (inc _ H)|exact L]]. Qed.
  Lemma panicked_mono : forall r, panicked all r -> panicked all' r.
  Proof. intros r (g & [H|(h & E & H)]); exists g; [left; exact (inc _ H)|right; exists h; split; [exact E|exact (inc _ H)]]. Qed.
  Lemma round_mono : forall g c r t b, round all g c r t b -> round all' g c r t b.
  Proof. intros g c r t b []; [constructor 1|econstructor 2|econstructor 3|econstructor 4]; eauto using low_mono. Qed.
  Lemma reaches_mono : forall g c r l, reaches all g c r l -> reaches all' g c r l.
  Proof.
    intros g c r l H. induction H; [constructor 1|constructor 2|constructor 3|eapply H_place_new|eapply H_unknown]; eauto using known_mono, panicked_mono, round_mono.
  Qed.
  Lemma served_mono : forall g c l, served all g c l -> served all' g c l.
  Proof. intros g c l []; [eapply S_returned|eapply S_told]; eauto using reaches_mono, round_mono. Qed.
End Mono.

Definition inner (o : ob) : Prop := match o with OMade _ _ (Some _) | OOut _ _ _ | OCount _ _ _ => True | _ => False end.
Lemma inner_round : forall all g c r t b, round all g c r t b -> Forall inner t.
Proof. intros all g c r t b []; repeat constructor. Qed.
Lemma inner_reaches : forall all g c r l, reaches all g c r l -> Forall inner l.
Proof.
  intros all g c r l H. induction H; try (repeat constructor). apply Forall_app. split; [assumption|]. apply Forall_app. split; [eapply inner_round; eassumption|repeat constructor].
Qed.
Lemma not_inner : forall o l, Forall inner l -> In o l -> inner o.
Proof. intros o l F I1. rewrite Forall_forall in F. exact (F o I1). Qed.
Definition red (all : list ob) (st : site) : Prop := exists r0, r_site r0 = st /\ known all r0 /\ panicked all r0.
Definition ok (all : list ob) (g : nat) (x : pc) (m : list ob) : Prop :=
  match x with
  | LFresh => m = []
  | LBegun c | LMissed c => m = [OBegin g c]
  | LMade c r => m = [OBegin g c; own g r] /\ r_mode r = NormalMode /\ r_site r = siteOf c
  | LRedirected c st | LMissedPlace c st => m = [OBegin g c] /\ SiteEvent st = cname c /\ red all st
  | LMadePlace c r => m = [OBegin g c; own g r] /\ r_mode r = FallbackMode /\ exists st, r_site r = placeSite st c /\ SiteEvent st = cname c /\ red all st
  | LRound c r => exists l, m = OBegin g c :: l /\ reaches all g c r l
  | LOut c r next => exists l, m = OBegin g c :: l /\ reaches all g c r l /\ r_stats r = next
  | LStats c r h => exists l t, m = OBegin g c :: l ++ t /\ reaches all g c r l /\ r_stats r = Some h /\ (t = [OOut g (r_out r) true] \/ t = [] /\ low all c)
  | LPanicked c r => exists l t, m = OBegin g c :: l ++ t /\ reaches all g c r l /\ round all g c r t false
  | LUnknown c st => exists r l t, m = OBegin g c :: l ++ t /\ r_site r = st /\ r_mode r = NormalMode /\ reaches all g c r l /\ round all g c r t false
  | LOver => exists c l, m = OBegin g c :: l ++ [ORet g] /\ served all g c l
  | LCrashed => exists c l st, m = OBegin g c :: l ++ [OMade g st None; OCrash g] /\ Forall inner l
  end.
Lemma red_mono : forall all all' st, incl all all' -> red all st -> red all' st.
Proof. intros all all' st H (r & E & K & P). exists r. eauto using known_mono, panicked_mono. Qed.
Lemma ok_mono : forall all all' g x m, incl all all' -> ok all g x m -> ok all' g x m.
Proof.
  intros all all' g x m H. destruct x; cbn; try tauto.
  - intros (A & B & C). eauto using red_mono.
  - intros (A & B & C). eauto using red_mono.
  - intros (A & B & st & C & D & E). repeat split; [exact A|exact B|]. exists st. eauto using red_mono.
  - intros (l & A & B). exists l. eauto using reaches_mono.
  - intros (l & A & B & C). exists l. eauto using reaches_mono.
  - intros (l & t & A & B & C & [D|[D E]]); exists l, t; repeat split; eauto using reaches_mono, low_mono.
  - intros (l & t & A & B & C). exists l, t. eauto using reaches_mono, round_mono.
  - intros (r & l & t & A & B & C & D & E). exists r, l, t. repeat split; eauto using reaches_mono, round_mono.
  - intros (c & l & A & B). exists c, l. eauto using served_mono.
Qed.

Record inv (s : state) : Prop := {
  i_level : MinCallLevel (st_levels s) = 15 \/ exists l, In (OMin l) (obs (world s)) /\ MinCallLevel (st_levels s) = l + 5;
  i_root : forall n r, byEvent s n = Some (Root r) -> r_mode r = NormalMode /\ SiteEvent (r_site r) = n /\ known (obs (world s)) r;
  i_red : forall n st, byEvent s n = Some (Redirector st) -> SiteEvent st = n /\ red (obs (world s)) st;
  i_place : forall f l r, byPlace s f l = Some r -> r_mode r = FallbackMode /\ File (r_site r) = f /\ Line (r_site r) = l /\ known (obs (world s)) r;
  i_pc : forall g, ok (obs (world s)) g (pcs (world s) g) (mine g (obs (world s)))
}.
Lemma inv_init : inv init.
Proof. split; cbn; try discriminate; [left; reflexivity|reflexivity]. Qed.

Lemma go_inv : forall s g x l, inv s -> Forall (fun o => of_call g o = true) l -> ok (obs (world s) ++ l) g x (mine g (obs (world s)) ++ l) -> inv (go s g x l).
Proof.
  intros s g x l Hi Hl Hx. assert (inc : incl (obs (world s)) (obs (world s) ++ l)) by (intros o H; apply in_or_app; auto).
  split; cbn [go setWorld world obs pcs st_levels byEvent byPlace].
  - destruct (i_level s Hi) as [H|(v & H & E)]; [left; exact H|right; exists v; split; [exact (inc _ H)|exact E]].
  - intros n r H. destruct (i_root s Hi n r H) as (A & B & C). eauto using known_mono.
  - intros n st H. destruct (i_red s Hi n st H) as (A & B). eauto using red_mono.
  - intros f n r H. destruct (i_place s Hi f n r H) as (A & B & C & D). eauto using known_mono.
  - intro v. rewrite mine_app. destruct (Nat.eqb_spec v g) as [->|N].
    + rewrite (mine_own g l Hl). exact Hx.
    + rewrite (mine_other g v l Hl N), app_nil_r. exact (ok_mono _ _ _ _ _ inc (i_pc s Hi v)).
Qed.
Lemma reaches_known : forall all g c r l, reaches all g c r l -> (forall o, In o l -> In o all) -> known all r.
Proof.
  intros all g c r l H K. destruct H as [r _ _ H|r _ _|r _ _ _ H|r r0 _ _ _ _ _|r r0 l t _ _ _ _ _]; try exact H; exists g; apply K; unfold own.
  - left. reflexivity.
  - left. reflexivity.
  - apply in_or_app. right. apply in_or_app. right. left. reflexivity.
Qed.
Lemma reaches_name : forall all g c r l, reaches all g c r l -> r_mode r = NormalMode -> SiteEvent (r_site r) = cname c.
Proof. intros all g c r l H M. destruct H as [r _ E _|r _ E|r F _ _ _|r r0 F _ _ _ _|r r0 l t _ _ _ F _]; try congruence. destruct E as (_ & _ & _ & _ & E & _). exact E. Qed.
Lemma round_panicked : forall all g c r t, round all g c r t false -> (forall o, In o t -> In o all) -> panicked all r.
Proof.
  intros all g c r t H K. exists g. remember false as b eqn:Eb. destruct H as [b E|h E|h b E|h b E L]; subst.
  - left. apply K. left. reflexivity.
  - left. apply K. left. reflexivity.
  - right. exists h. split; [exact E|]. apply K. right. left. reflexivity.
  - right. exists h. split; [exact E|]. apply K. left. reflexivity.
Qed.
Lemma store_inv : forall s n h, inv s ->
  match h with Root r => r_mode r = NormalMode /\ SiteEvent (r_site r) = n /\ known (obs (world s)) r | Redirector st => SiteEvent st = n /\ red (obs (world s)) st end ->
  inv (storeEvent s n h).
Proof.
  intros s n h Hi Hh. split; cbn; [exact (i_level s Hi)| | |exact (i_place s Hi)|exact (i_pc s Hi)].
  - intros m r H. destruct (bytes_eqb m n) eqn:E; [|exact (i_root s Hi m r H)]. apply bytes_eqb_eq in E. injection H as ->. subst m. exact Hh.
  - intros m r H. destruct (bytes_eqb m n) eqn:E; [|exact (i_red s Hi m r H)]. apply bytes_eqb_eq in E. injection H as ->. subst m. exact Hh.
Qed.
Lemma storeP_inv : forall s f l r, inv s -> r_mode r = FallbackMode /\ File (r_site r) = f /\ Line (r_site r) = l /\ known (obs (world s)) r -> inv (storePlace s f l r).
Proof.
  intros s f l r Hi Hh. split; cbn; [exact (i_level s Hi)|exact (i_root s Hi)|exact (i_red s Hi)| |exact (i_pc s Hi)].
  intros f' l' r' H. destruct (bytes_eqb f' f) eqn:E; [|exact (i_place s Hi _ _ _ H)]. cbn in H. destruct (Z.eqb_spec l' l) as [->|N]; [|exact (i_place s Hi _ _ _ H)].
  apply bytes_eqb_eq in E. injection H as <-. subst f'. exact Hh.
Qed.
Lemma no_begin_round : forall all g c r t b c', round all g c r t b -> ~ In (OBegin g c') t.
Proof. intros all g c r t b c' []; cbn; intuition discriminate. Qed.
Lemma no_begin_reaches : forall all g c r l c', reaches all g c r l -> ~ In (OBegin g c') l.
Proof.
  intros all g c r l c' H. induction H as [r A B C|r A B|r A B C D|r r0 A B C D F|r r0 l t R IH N T M S0]; cbn; unfold own; try (intuition discriminate). intro I1.
  apply in_app_or in I1. destruct I1 as [I1|I1]; [exact (IH I1)|]. apply in_app_or in I1. destruct I1 as [I1|[I1|[]]]; [exact (no_begin_round _ _ _ _ _ _ _ T I1)|discriminate I1].
Qed.
Ltac own_obs := repeat (apply Forall_cons; [cbn; apply Nat.eqb_refl|]); apply Forall_nil.
Lemma inv_step : forall s e s', inv s -> step s e = Some s' -> inv s'.
Proof.
  intros s e s' Hi E. destruct e as [l|g c|g|g a|g|g|g b|g b|g]; cbn [step] in E.
  - injection E as <-. assert (inc : incl (obs (world s)) (obs (world s) ++ [OMin l])) by (intros o H; apply in_or_app; auto). split; cbn [world obs pcs st_levels byEvent byPlace].
    + right. exists l. split; [apply in_or_app; right; left; reflexivity|reflexivity].
    + intros n r H. destruct (i_root s Hi n r H) as (A & B & C). eauto using known_mono.
    + intros n st H. destruct (i_red s Hi n st H) as (A & B). eauto using red_mono.
    + intros f n r H. destruct (i_place s Hi f n r H) as (A & B & C & D). eauto using known_mono.
    + intro v. rewrite mine_app. cbn [mine filter of_call]. rewrite app_nil_r. exact (ok_mono _ _ _ _ _ inc (i_pc s Hi v)).
  - pose proof (i_pc s Hi g) as P. destruct (pcs (world s) g) eqn:Q; try discriminate E. injection E as <-. cbn [ok] in P. apply go_inv; [exact Hi|own_obs|]. rewrite P. reflexivity.
  - pose proof (i_pc s Hi g) as P. destruct (pcs (world s) g) as [|c| | |c st| | | | | | | | | ] eqn:Q; try discriminate E.
    + cbn [ok] in P. destruct (byEvent s (cname c)) as [[r|st]|] eqn:B; injection E as <-; (apply go_inv; [exact Hi|own_obs|]); rewrite !app_nil_r, P; cbn [ok].
      * exists []. split; [reflexivity|]. destruct (i_root s Hi _ _ B) as (X & Y & Z). constructor 1; assumption.
      * destruct (i_red s Hi _ _ B) as (X & Y). auto.
      * reflexivity.
    + cbn [ok] in P. destruct P as (P & N & R). destruct (byPlace s (cfile c) (cline c)) as [r|] eqn:B; injection E as <-; (apply go_inv; [exact Hi|own_obs|]); rewrite !app_nil_r, P; cbn [ok].
      * exists []. split; [reflexivity|]. destruct (i_place s Hi _ _ _ B) as (X & Y & Z & K). constructor 3; assumption.
      * auto.
  - pose proof (i_pc s Hi g) as P. destruct (pcs (world s) g) as [| |c| | |c st| | | | | |c st| | ] eqn:Q; try discriminate E; injection E as <-; unfold makes; destruct a as [[sh h]|].
    + cbn [ok] in P. apply go_inv; [exact Hi|own_obs|]. rewrite P. cbn. auto.
    + cbn [ok] in P. apply go_inv; [exact Hi|own_obs|]. rewrite P. cbn. exists c, [], (siteOf c). split; [reflexivity|constructor].
    + cbn [ok] in P. destruct P as (P & N & R). apply go_inv; [exact Hi|own_obs|]. rewrite P. cbn. split; [reflexivity|]. split; [reflexivity|]. exists st. split; [reflexivity|]. split; [exact N|].
      apply (red_mono (obs (world s))); [|exact R]. intros o H; apply in_or_app; auto.
    + cbn [ok] in P. destruct P as (P & _). apply go_inv; [exact Hi|own_obs|]. rewrite P. cbn. exists c, [], (placeSite st c). split; [reflexivity|constructor].
    + cbn [ok] in P. destruct P as (r0 & l & t & P & S0 & M & R & T). apply go_inv; [exact Hi|own_obs|]. rewrite P. cbn [ok]. exists (l ++ t ++ [own g (rootOf (unknownSite st c) FallbackMode (sh, h))]).
      split; [cbn [app]; rewrite <- app_assoc; reflexivity|]. assert (inc : incl (obs (world s)) (obs (world s) ++ [OMade g (unknownSite st c) (Some (sh, h))])) by (intros o H; apply in_or_app; auto).
      eapply H_unknown; [exact (reaches_mono _ _ inc _ _ _ _ R)|exact M|exact (round_mono _ _ inc _ _ _ _ _ T)|reflexivity|]. cbn. rewrite S0. repeat split.
    + cbn [ok] in P. destruct P as (r0 & l & t & P & S0 & M & R & T). apply go_inv; [exact Hi|own_obs|]. rewrite P. cbn [ok]. exists c, (l ++ t), (unknownSite st c).
      split; [reflexivity|]. apply Forall_app. split; [exact (inner_reaches _ _ _ _ _ R)|exact (inner_round _ _ _ _ _ _ T)].
  - pose proof (i_pc s Hi g) as P. destruct (pcs (world s) g) as [| | |c r| | |c r| | | | | | | ] eqn:Q; try discriminate E; injection E as <-.
    + cbn [ok] in P. destruct P as (P & M & N). assert (K : known (obs (world s)) r) by (exists g; apply (mine_in g); rewrite P; right; left; reflexivity). apply store_inv.
      * apply go_inv; [exact Hi|own_obs|]. rewrite !app_nil_r, P. cbn [ok]. exists [own g r]. split; [reflexivity|]. constructor 2; [exact M|]. rewrite N. repeat split.
      * cbn. rewrite app_nil_r. rewrite N. auto.
    + cbn [ok] in P. destruct P as (P & M & st & N & Nm & (r0 & R1 & R2 & R3)). assert (K : known (obs (world s)) r) by (exists g; apply (mine_in g); rewrite P; right; left; reflexivity). apply storeP_inv.
      * apply go_inv; [exact Hi|own_obs|]. rewrite !app_nil_r, P. cbn [ok]. exists [own g r]. split; [reflexivity|]. subst st. eapply H_place_new; try eassumption. rewrite N. repeat split.
      * cbn. rewrite app_nil_r. rewrite N. auto.
  - pose proof (i_pc s Hi g) as P. destruct (pcs (world s) g) as [| | | | | | |c r| | | | | | ] eqn:Q; try discriminate E. cbn [ok] in P. destruct P as (l & P & R).
    destruct (r_stats r) as [h|] eqn:St; [destruct (Z.leb_spec (MinCallLevel (st_levels s)) (clevel c)) as [L|L]|]; injection E as <-; (apply go_inv; [exact Hi|own_obs|]); rewrite !app_nil_r, P; cbn [ok].
    + exists l. auto.
    + exists l, []. rewrite app_nil_r. repeat split; try assumption. right. split; [reflexivity|]. destruct (i_level s Hi) as [X|(v & I1 & X)]; [left; lia|right; exists v; split; [exact I1|lia]].
    + exists l. auto.
  - pose proof (i_pc s Hi g) as P. destruct (pcs (world s) g) as [| | | | | | | |c r next| | | | | ] eqn:Q; try discriminate E. cbn [ok] in P. destruct P as (l & P & R & St).
    assert (inc : forall x, incl (obs (world s)) (obs (world s) ++ x)) by (intros x o H; apply in_or_app; auto).
    destruct b; [destruct next as [h|]|]; injection E as <-; (apply go_inv; [exact Hi|own_obs|]); rewrite P; cbn [ok].
    + exists l, [OOut g (r_out r) true]. repeat split; [eapply reaches_mono; [apply inc|exact R]|exact St|left; reflexivity].
    + exists c, (l ++ [OOut g (r_out r) true]). split; [cbn [app]; rewrite <- app_assoc; reflexivity|]. eapply S_returned; [eapply reaches_mono; [apply inc|exact R]|]. constructor 1. exact St.
    + exists l, [OOut g (r_out r) false]. split; [reflexivity|]. split; [eapply reaches_mono; [apply inc|exact R]|]. destruct next as [h|]; [econstructor 2; exact St|constructor 1; exact St].
  - pose proof (i_pc s Hi g) as P. destruct (pcs (world s) g) as [| | | | | | | | |c r h| | | | ] eqn:Q; try discriminate E. cbn [ok] in P. destruct P as (l & t & P & R & St & T).
    assert (inc : forall x, incl (obs (world s)) (obs (world s) ++ x)) by (intros x o H; apply in_or_app; auto).
    assert (X : forall x, round (obs (world s) ++ x) g c r (t ++ [OCount g h b]) b).
    { intro x. destruct T as [-> | [-> L]]; [econstructor 3; exact St|econstructor 4; [exact St|eapply low_mono; [apply inc|exact L]]]. }
    destruct b; injection E as <-; (apply go_inv; [exact Hi|own_obs|]); rewrite P; cbn [ok].
    + exists c, (l ++ (t ++ [OCount g h true])). split; [cbn [app]; rewrite <- !app_assoc; reflexivity|]. eapply S_returned; [eapply reaches_mono; [apply inc|exact R]|apply X].
    + exists l, (t ++ [OCount g h false]). split; [cbn [app]; rewrite <- !app_assoc; reflexivity|]. split; [eapply reaches_mono; [apply inc|exact R]|apply X].
  - pose proof (i_pc s Hi g) as P. destruct (pcs (world s) g) as [| | | | | | | | | |c r| | | ] eqn:Q; try discriminate E. cbn [ok] in P. destruct P as (l & t & P & R & T).
    assert (Sub : forall o, In o l \/ In o t -> In o (obs (world s))).
    { intros o H. apply (mine_in g). rewrite P. right. apply in_or_app. exact H. }
    destruct (r_mode r) eqn:M; injection E as <-.
    + apply store_inv.
      * apply go_inv; [exact Hi|own_obs|]. rewrite !app_nil_r, P. cbn [ok]. exists r, l, t. auto.
      * cbn. rewrite app_nil_r. split; [reflexivity|]. exists r. split; [reflexivity|]. split; [eapply reaches_known; [exact R|auto]|eapply round_panicked; [exact T|auto]].
    + apply go_inv; [exact Hi|own_obs|]. rewrite P. cbn [ok]. assert (inc : forall x, incl (obs (world s)) (obs (world s) ++ x)) by (intros x o H; apply in_or_app; auto).
      exists c, (l ++ t ++ [OTold g]). split; [cbn [app]; rewrite <- !app_assoc; reflexivity|]. eapply S_told; [eapply reaches_mono; [apply inc|exact R]|exact M|eapply round_mono; [apply inc|exact T]].
Qed.
Lemma inv_run_from : forall evs s s', inv s -> run s evs = Some s' -> inv s'.
Proof. induction evs as [|e evs IH]; intros s s' Hi R; cbn in R; [injection R as <-; exact Hi|]. destruct (step s e) as [s1|] eqn:E; [|discriminate R]. exact (IH _ _ (inv_step _ _ _ Hi E) R). Qed.
Lemma inv_run : forall evs s, run init evs = Some s -> inv s.
Proof. intros evs s R. exact (inv_run_from _ _ _ inv_init R). Qed.
Lemma run_app : forall a b s, run s (a ++ b) = match run s a with Some s' => run s' b | None => None end.
Proof. induction a as [|e a IH]; intros b s; [reflexivity|]. cbn. destruct (step s e); [apply IH|reflexivity]. Qed.

(** * The end of a call *)
Definition rank (x : pc) : nat :=
  match x with
  | LFresh => 13 | LBegun _ => 12 | LMissed _ => 11 | LMade _ _ => 10 | LRedirected _ _ => 7 | LMissedPlace _ _ => 6 | LMadePlace _ _ => 5
  | LRound _ r => match r_mode r with NormalMode => 9 | FallbackMode => 4 end
  | LOut _ r _ => match r_mode r with NormalMode => 8 | FallbackMode => 3 end
  | LStats _ r _ => match r_mode r with NormalMode => 7 | FallbackMode => 2 end
  | LPanicked _ r => match r_mode r with NormalMode => 6 | FallbackMode => 1 end
  | LUnknown _ _ => 5 | LOver => 0 | LCrashed => 0
  end%nat.
Lemma step_rank : forall s e s' g, inv s -> step s e = Some s' ->
  if step_of g e then (rank (pcs (world s') g) < rank (pcs (world s) g))%nat else pcs (world s') g = pcs (world s) g.
Proof.
  intros s e s' g Hi E. destruct e as [l|v c|v|v a|v|v|v b|v b|v]; cbn [step_of]; cbn [step] in E; [injection E as <-; reflexivity| | | | | | | | ];
    pose proof (i_pc s Hi v) as P; destruct (pcs (world s) v) eqn:Q; try discriminate E;
    repeat match type of E with context [match ?x with _ => _ end] => let H := fresh "D" in destruct x eqn:H; try discriminate E end;
    injection E as <-;
    try (match goal with |- context [makes] => unfold makes; destruct a as [[? ?]|] end);
    cbn [world storeEvent storePlace go setWorld pcs];
    (destruct (Nat.eqb_spec v g) as [<-|N]; [rewrite Nat.eqb_refl, Q|assert (N2 : (g =? v)%nat = false) by (apply Nat.eqb_neq; congruence); try rewrite N2; reflexivity]);
    cbn [rank rootOf r_mode] in *; try (match goal with D : r_mode ?r = _ |- context [r_mode ?r] => rewrite D end); try (match goal with |- context [r_mode ?r] => destruct (r_mode r) eqn:? end); try lia.
  - destruct (i_place s Hi _ _ _ D) as (X & _). congruence.
  - cbn [ok] in P. destruct P as (_ & X & _). congruence.
Qed.
Lemma run_rank : forall g evs s s', inv s -> run s evs = Some s' -> (List.length (filter (step_of g) evs) + rank (pcs (world s') g) <= rank (pcs (world s) g))%nat.
Proof.
  intro g. induction evs as [|e evs IH]; intros s s' Hi R; cbn in R; [injection R as <-; cbn; lia|]. destruct (step s e) as [s1|] eqn:E; [|discriminate R].
  pose proof (IH _ _ (inv_step _ _ _ Hi E) R) as L. pose proof (step_rank s e s1 g Hi E) as K. cbn [filter]. destruct (step_of g e); cbn [List.length]; [lia|]. rewrite K in L. lia.
Qed.
Lemma progress : forall s g, match pcs (world s) g with LFresh | LOver | LCrashed => True | _ => exists e s', step_of g e = true /\ step s e = Some s' end.
Proof.
  intros s g. destruct (pcs (world s) g) as [|c|c|c r|c st|c st|c r|c r|c r next|c r h|c r|c st| | ] eqn:Q; try exact Logic.I.
  - exists (Load g). cbn [step]. rewrite Q. destruct (byEvent s (cname c)) as [[?|?]|]; eexists; (split; [apply Nat.eqb_refl|reflexivity]).
  - exists (Makes g None). cbn [step]. rewrite Q. eexists; (split; [apply Nat.eqb_refl|reflexivity]).
  - exists (Store g). cbn [step]. rewrite Q. eexists; (split; [apply Nat.eqb_refl|reflexivity]).
  - exists (Load g). cbn [step]. rewrite Q. destruct (byPlace s (cfile c) (cline c)); eexists; (split; [apply Nat.eqb_refl|reflexivity]).
  - exists (Makes g None). cbn [step]. rewrite Q. eexists; (split; [apply Nat.eqb_refl|reflexivity]).
  - exists (Store g). cbn [step]. rewrite Q. eexists; (split; [apply Nat.eqb_refl|reflexivity]).
  - exists (Handles g). cbn [step]. rewrite Q. destruct (r_stats r); [destruct (_ <=? _)|]; eexists; (split; [apply Nat.eqb_refl|reflexivity]).
  - exists (Outs g true). cbn [step]. rewrite Q. destruct next; eexists; (split; [apply Nat.eqb_refl|reflexivity]).
  - exists (Counts g true). cbn [step]. rewrite Q. eexists; (split; [apply Nat.eqb_refl|reflexivity]).
  - exists (Recovers g). cbn [step]. rewrite Q. destruct (r_mode r); eexists; (split; [apply Nat.eqb_refl|reflexivity]).
  - exists (Makes g None). cbn [step]. rewrite Q. eexists; (split; [apply Nat.eqb_refl|reflexivity]).
Qed.

(** * Of what is served *)
Lemma in_begin : forall g c l all, mine g all = OBegin g c :: l -> In (OBegin g c) all.
Proof. intros g c l all E. apply (mine_in g). rewrite E. left. reflexivity. Qed.
Lemma outs_app : forall a b, outs (a ++ b) = (outs a + outs b)%nat.
Proof. intros. unfold outs. rewrite filter_app, app_length. reflexivity. Qed.
Lemma counts_app : forall a b, counts (a ++ b) = (counts a + counts b)%nat.
Proof. intros. unfold counts. rewrite filter_app, app_length. reflexivity. Qed.
Lemma round_nums : forall all g c r t b, round all g c r t b -> (outs t <= 1 /\ counts t <= 1 /\ 1 <= outs t + counts t)%nat /\ (outs t = 0%nat -> low all c) /\
  (b = true -> counts t = 0%nat -> r_stats r = None) /\ (b = true -> existsb bad t = false) /\ (b = false -> existsb bad t = true).
Proof.
  intros all g c r t b H. destruct H as [b E|h E|h b E|h b E L]; try destruct b; unfold outs, counts; cbn; repeat split; intros; try lia; try discriminate; try congruence; try assumption; try reflexivity.
Qed.
Lemma bad_app : forall a b, existsb bad (a ++ b) = existsb bad a || existsb bad b.
Proof. intros. apply existsb_app. Qed.
Lemma reaches_nums : forall all g c r l, reaches all g c r l -> (outs l <= 1 /\ counts l <= 1)%nat /\ (r_mode r = NormalMode -> outs l = 0 /\ counts l = 0)%nat /\ (existsb bad l = false -> outs l = 0 /\ counts l = 0)%nat.
Proof.
  intros all g c r l H. induction H as [r A B C|r A B|r A B C D|r r0 A B C D F|r r0 l t R IH N T M S0].
  - cbn. repeat split; lia.
  - cbn. repeat split; lia.
  - cbn. repeat split; lia.
  - cbn. repeat split; lia.
  - destruct IH as (_ & IH & _). destruct (IH N) as [X Y]. destruct (round_nums _ _ _ _ _ _ T) as ((P1 & P2 & _) & _ & _ & _ & P3). rewrite !outs_app, !counts_app, !bad_app. cbn [outs counts filter is_out is_count own List.length].
    unfold outs, counts in *. cbn. rewrite (P3 eq_refl), !orb_true_r. repeat split; try lia; try discriminate; congruence.
Qed.

(** * After the event is redirected *)
Lemma quiet_step : forall n s e s', inv s -> quiet n s -> step s e = Some s' -> quiet n s'.
Proof.
  intros n s e s' Hi [[st B] Q] E.
  assert (Go : forall g x l, (match x with LMissed c | LMade c _ => cname c <> n | _ => True end) -> quiet n (go s g x l)).
  { intros g x l Hx. split; [exists st; exact B|]. intro v. cbn. destruct (v =? g)%nat; [exact Hx|exact (Q v)]. }
  destruct e as [l|g c|g|g a|g|g|g b|g b|g]; cbn [step] in E.
  - injection E as <-. split; [exists st; exact B|exact Q].
  - destruct (pcs (world s) g) eqn:P; try discriminate E. injection E as <-. apply Go. exact Logic.I.
  - destruct (pcs (world s) g) as [|c| | |c st1| | | | | | | | | ] eqn:P; try discriminate E.
    + destruct (byEvent s (cname c)) as [[r|s1]|] eqn:C; injection E as <-; apply Go; try exact Logic.I. intros <-. congruence.
    + destruct (byPlace s (cfile c) (cline c)); injection E as <-; apply Go; exact Logic.I.
  - pose proof (Q g) as Qg. destruct (pcs (world s) g) as [| |c| | |c st1| | | | | |c st1| | ] eqn:P; try discriminate E; injection E as <-; unfold makes; destruct a; apply Go; try exact Logic.I. exact Qg.
  - pose proof (Q g) as Qg. destruct (pcs (world s) g) as [| | |c r| | |c r| | | | | | | ] eqn:P; try discriminate E; injection E as <-.
    + destruct (Go g (LRound c r) [] Logic.I) as [_ X]. split; [|exact X]. exists st. cbn. destruct (bytes_eqb n (cname c)) eqn:F; [apply bytes_eqb_eq in F; congruence|exact B].
    + destruct (Go g (LRound c r) [] Logic.I) as [_ X]. split; [exists st; exact B|exact X].
  - destruct (pcs (world s) g) as [| | | | | | |c r| | | | | | ] eqn:P; try discriminate E. destruct (r_stats r); [destruct (_ <=? _)|]; injection E as <-; apply Go; exact Logic.I.
  - destruct (pcs (world s) g) as [| | | | | | | |c r next| | | | | ] eqn:P; try discriminate E. destruct b; [destruct next|]; injection E as <-; apply Go; exact Logic.I.
  - destruct (pcs (world s) g) as [| | | | | | | | |c r h| | | | ] eqn:P; try discriminate E. destruct b; injection E as <-; apply Go; exact Logic.I.
  - destruct (pcs (world s) g) as [| | | | | | | | | |c r| | | ] eqn:P; try discriminate E. destruct (r_mode r); injection E as <-; [|apply Go; exact Logic.I].
    destruct (Go g (LUnknown c (r_site r)) [] Logic.I) as [_ X]. split; [|exact X]. cbn. destruct (bytes_eqb n (SiteEvent (r_site r))); eauto.
Qed.
Definition late (all : list ob) (n : bytes) (g : nat) (x : pc) (m : list ob) : Prop :=
  match x with
  | LMissed c | LMade c _ | LUnknown c _ => cname c <> n
  | LRound c r | LOut c r _ => cname c = n -> of_place all c r /\ exists l, m = OBegin g c :: l /\ short g r l
  | LStats c r _ => cname c = n -> of_place all c r /\ exists l t, m = OBegin g c :: l ++ t /\ short g r l /\ (t = [OOut g (r_out r) true] \/ t = [] /\ low all c)
  | LPanicked c r => cname c = n -> of_place all c r /\ exists l t, m = OBegin g c :: l ++ t /\ short g r l /\ round all g c r t false
  | LOver => forall c, In (OBegin g c) m -> cname c = n -> by_place all g c m
  | _ => True
  end.
Lemma place_mono : forall all all' c r, incl all all' -> of_place all c r -> of_place all' c r.
Proof. intros all all' c r H (A & B & C & D). unfold of_place. eauto using known_mono. Qed.
Lemma late_mono : forall all all' n g x m, incl all all' -> late all n g x m -> late all' n g x m.
Proof.
  intros all all' n g x m H. destruct x; cbn; try tauto.
  - intros X E. destruct (X E). eauto using place_mono.
  - intros X E. destruct (X E). eauto using place_mono.
  - intros X E. destruct (X E) as (A & l & t & B & C & D). split; [eauto using place_mono|]. exists l, t. split; [exact B|]. split; [exact C|]. destruct D as [D|[D D']]; eauto using low_mono.
  - intros X E. destruct (X E) as (A & l & t & B & C & D). split; [eauto using place_mono|]. exists l, t. eauto using round_mono.
  - intros X c I1 E. destruct (X c I1 E) as (r & l & t & b & A & B & C & D). exists r, l, t, b. split; [exact A|]. split; [exact B|]. split; [exact (place_mono _ _ _ _ H C)|exact (round_mono _ _ H _ _ _ _ _ D)].
Qed.

Lemma late_step : forall n s e s' g, inv s -> quiet n s -> step s e = Some s' -> late (obs (world s)) n g (pcs (world s) g) (mine g (obs (world s))) ->
  late (obs (world s')) n g (pcs (world s') g) (mine g (obs (world s'))).
Proof.
  intros n s e s' g Hi [[st0 B] Q] E L.
  assert (inc : forall x, incl (obs (world s)) (obs (world s) ++ x)) by (intros x o H; apply in_or_app; auto).
  assert (Go : forall v x l, Forall (fun o => of_call v o = true) l -> (v = g -> late (obs (world s) ++ l) n g x (mine g (obs (world s)) ++ l)) ->
    late (obs (world (go s v x l))) n g (pcs (world (go s v x l)) g) (mine g (obs (world (go s v x l))))).
  { intros v x l Hl Hx. cbn [go setWorld world obs pcs]. rewrite mine_app. destruct (Nat.eqb_spec g v) as [->|N].
    - rewrite (mine_own v l Hl). exact (Hx eq_refl).
    - rewrite (mine_other v g l Hl N), app_nil_r. exact (late_mono _ _ _ _ _ _ (inc l) L). }
  destruct e as [l|v c|v|v a|v|v|v b|v b|v]; cbn [step] in E.
  - injection E as <-. cbn [world obs pcs]. rewrite mine_app. cbn [mine filter of_call]. rewrite app_nil_r. exact (late_mono _ _ _ _ _ _ (inc _) L).
  - destruct (pcs (world s) v) eqn:P; try discriminate E. injection E as <-. apply Go; [own_obs|]. intros _. exact Logic.I.
  - pose proof (i_pc s Hi v) as Pv. destruct (pcs (world s) v) as [|c| | |c st1| | | | | | | | | ] eqn:P; try discriminate E; cbn [ok] in Pv.
    + destruct (byEvent s (cname c)) as [[r|s1]|] eqn:C; injection E as <-; (apply Go; [own_obs|]); intros ->; cbn [late]; try exact Logic.I; intros <-; congruence.
    + destruct Pv as (Pv & _). destruct (byPlace s (cfile c) (cline c)) as [r|] eqn:C; injection E as <-; (apply Go; [own_obs|]); intros ->; cbn [late]; try exact Logic.I. intros _. rewrite !app_nil_r.
      split; [exact (i_place s Hi _ _ _ C)|]. exists []. split; [exact Pv|left; reflexivity].
  - destruct (pcs (world s) v) as [| |c| | |c st1| | | | | |c st1| | ] eqn:P; try discriminate E; injection E as <-; unfold makes; destruct a; (apply Go; [own_obs|]); intros ->; cbn [late]; try exact Logic.I.
    + rewrite P in L. exact L.
    + rewrite P in L. intro X. contradiction.
  - pose proof (i_pc s Hi v) as Pv. destruct (pcs (world s) v) as [| | |c r| | |c r| | | | | | | ] eqn:P; try discriminate E; cbn [ok] in Pv; injection E as <-.
    + apply (Go v (LRound c r) []); [own_obs|]. intros ->. rewrite P in L. cbn [late] in *. intro X. contradiction.
    + apply (Go v (LRound c r) []); [own_obs|]. intros ->. cbn [late]. intros _. destruct Pv as (Pv & M & st & N & Nm & _). rewrite !app_nil_r. split.
      * split; [exact M|]. split; [rewrite N; reflexivity|]. split; [rewrite N; reflexivity|]. exists g. apply (mine_in g). rewrite Pv. right. left. reflexivity.
      * exists [own g r]. split; [exact Pv|right; reflexivity].
  - destruct (pcs (world s) v) as [| | | | | | |c r| | | | | | ] eqn:P; try discriminate E.
    destruct (r_stats r) as [h|] eqn:St; [destruct (Z.leb_spec (MinCallLevel (st_levels s)) (clevel c)) as [Lv|Lv]|]; injection E as <-; (apply Go; [own_obs|]); intros ->; rewrite P in L; rewrite !app_nil_r; cbn [late] in *.
    + exact L.
    + intro X. destruct (L X) as (A & l & B1 & C). split; [exact A|]. exists l, []. rewrite app_nil_r. split; [exact B1|]. split; [exact C|]. right. split; [reflexivity|].
      destruct (i_level s Hi) as [Y|(v & I1 & Y)]; [left; lia|right; exists v; split; [exact I1|lia]].
    + exact L.
  - pose proof (i_pc s Hi v) as Pv. destruct (pcs (world s) v) as [| | | | | | | |c r next| | | | | ] eqn:P; try discriminate E. cbn [ok] in Pv. destruct Pv as (_ & _ & _ & St).
    destruct b; [destruct next as [h|]|]; injection E as <-; (apply Go; [own_obs|]); intros ->; rewrite P in L; cbn [late] in *.
    + intro X. destruct (L X) as (A & l & B1 & C). split; [eapply place_mono; [apply inc|exact A]|]. exists l, [OOut g (r_out r) true]. rewrite B1. split; [reflexivity|]. split; [exact C|left; reflexivity].
    + intros c' I1 X. pose proof (i_pc s Hi g) as Pg. rewrite P in Pg. cbn [ok] in Pg. destruct Pg as (l0 & Pg & R0 & _).
      assert (Ec : c' = c).
      { rewrite Pg in I1. apply in_app_or in I1. destruct I1 as [[I1|I1]|[I1|[I1|[]]]]; try discriminate I1; [injection I1 as <-; reflexivity|]. exfalso. exact (no_begin_reaches _ _ _ _ _ _ R0 I1). }
      subst c'. destruct (L X) as (A & l & B1 & C). exists r, l, [OOut g (r_out r) true], true. rewrite B1. split; [reflexivity|]. split; [exact C|].
      split; [eapply place_mono; [apply inc|exact A]|constructor 1; exact St].
    + intro X. destruct (L X) as (A & l & B1 & C). split; [eapply place_mono; [apply inc|exact A]|]. exists l, [OOut g (r_out r) false]. rewrite B1. split; [reflexivity|]. split; [exact C|].
      destruct next as [h|]; [econstructor 2; exact St|constructor 1; exact St].
  - pose proof (i_pc s Hi v) as Pv. destruct (pcs (world s) v) as [| | | | | | | | |c r h| | | | ] eqn:P; try discriminate E. cbn [ok] in Pv. destruct Pv as (l0 & t0 & Pg & R0 & St & T0).
    destruct b; injection E as <-; (apply Go; [own_obs|]); intros ->; rewrite P in L; cbn [late] in *.
    + intros c' I1 X. assert (Ec : c' = c).
      { rewrite Pg in I1. apply in_app_or in I1. destruct I1 as [[I1|I1]|[I1|[I1|[]]]]; try discriminate I1; [injection I1 as <-; reflexivity|]. exfalso. apply in_app_or in I1.
        destruct I1 as [I1|I1]; [exact (no_begin_reaches _ _ _ _ _ _ R0 I1)|]. destruct T0 as [-> | [-> _]]; [destruct I1 as [I1|[]]; discriminate I1|destruct I1]. }
      subst c'. destruct (L X) as (A & l & t & B1 & C & D). exists r, l, (t ++ [OCount g h true]), true. rewrite B1. split; [cbn [app]; rewrite <- !app_assoc; reflexivity|]. split; [exact C|].
      split; [eapply place_mono; [apply inc|exact A]|]. destruct D as [-> | [-> D]]; [econstructor 3; exact St|econstructor 4; [exact St|eapply low_mono; [apply inc|exact D]]].
    + intro X. destruct (L X) as (A & l & t & B1 & C & D). split; [eapply place_mono; [apply inc|exact A]|]. exists l, (t ++ [OCount g h false]). rewrite B1. split; [cbn [app]; rewrite <- !app_assoc; reflexivity|].
      split; [exact C|]. destruct D as [-> | [-> D]]; [econstructor 3; exact St|econstructor 4; [exact St|eapply low_mono; [apply inc|exact D]]].
  - pose proof (i_pc s Hi v) as Pv. destruct (pcs (world s) v) as [| | | | | | | | | |c r| | | ] eqn:P; try discriminate E. cbn [ok] in Pv. destruct Pv as (l0 & t0 & Pg & R0 & T0).
    destruct (r_mode r) eqn:M; injection E as <-.
    + apply (Go v (LUnknown c (r_site r)) []); [own_obs|]. intros ->. rewrite P in L. cbn [late] in *. intro X. destruct (L X) as ((A & _) & _). congruence.
    + apply Go; [own_obs|]. intros ->. rewrite P in L. cbn [late] in *. intros c' I1 X. assert (Ec : c' = c).
      { rewrite Pg in I1. apply in_app_or in I1. destruct I1 as [[I1|I1]|[I1|[I1|[]]]]; try discriminate I1; [injection I1 as <-; reflexivity|]. exfalso. apply in_app_or in I1.
        destruct I1 as [I1|I1]; [exact (no_begin_reaches _ _ _ _ _ _ R0 I1)|exact (no_begin_round _ _ _ _ _ _ _ T0 I1)]. }
      subst c'. destruct (L X) as (A & l & t & B1 & C & D). exists r, l, t, false. rewrite B1. split; [cbn [app]; rewrite <- !app_assoc; reflexivity|]. split; [exact C|].
      split; [eapply place_mono; [apply inc|exact A]|eapply round_mono; [apply inc|exact D]].
Qed.
Lemma late_run : forall n g evs s s', inv s -> quiet n s -> run s evs = Some s' -> late (obs (world s)) n g (pcs (world s) g) (mine g (obs (world s))) ->
  late (obs (world s')) n g (pcs (world s') g) (mine g (obs (world s'))).
Proof.
  intros n g. induction evs as [|e evs IH]; intros s s' Hi Q R L; cbn in R; [injection R as <-; exact L|]. destruct (step s e) as [s1|] eqn:E; [|discriminate R].
  exact (IH _ _ (inv_step _ _ _ Hi E) (quiet_step _ _ _ _ Hi Q E) R (late_step _ _ _ _ _ Hi Q E L)).
Qed.

(** * When there are handlers for the event *)
Lemma cached_up : forall n s e s', step s e = Some s' -> byEvent s n <> None -> byEvent s' n <> None.
Proof.
  intros n s e s' E H. destruct e as [l|v c|v|v a|v|v|v b|v b|v]; cbn [step] in E; [injection E as <-; exact H| | | | | | | | ];
    destruct (pcs (world s) v) eqn:Q; try discriminate E;
    repeat match type of E with context [match ?x with _ => _ end] => let H := fresh "D" in destruct x eqn:H; try discriminate E end;
    injection E as <-; try (match goal with |- context [makes] => unfold makes; destruct a as [[? ?]|] end); cbn; try exact H; destruct (bytes_eqb n _); try discriminate; exact H.
Qed.
Lemma begin_one : forall all g x m c c', ok all g x m -> In (OBegin g c) m -> In (OBegin g c') m -> c = c'.
Proof.
  intros all g x m c c' O A B. assert (X : exists c0 l, (m = OBegin g c0 :: l /\ forall c1, ~ In (OBegin g c1) l) \/ m = []).
  { destruct x as [|k|k|k r|k st|k st|k r|k r|k r next|k r h|k r|k st| | ]; cbn [ok] in O.
    - exists c, []. right. exact O.
    - exists k, []. left. split; [exact O|intros c1 []].
    - exists k, []. left. split; [exact O|intros c1 []].
    - destruct O as (O & _). exists k, [own g r]. left. split; [exact O|]. intros c1 [F|[]]. discriminate F.
    - destruct O as (O & _). exists k, []. left. split; [exact O|intros c1 []].
    - destruct O as (O & _). exists k, []. left. split; [exact O|intros c1 []].
    - destruct O as (O & _). exists k, [own g r]. left. split; [exact O|]. intros c1 [F|[]]. discriminate F.
    - destruct O as (l & O & R). exists k, l. left. split; [exact O|]. intros c1 F. exact (no_begin_reaches _ _ _ _ _ _ R F).
    - destruct O as (l & O & R & _). exists k, l. left. split; [exact O|]. intros c1 F. exact (no_begin_reaches _ _ _ _ _ _ R F).
    - destruct O as (l & t & O & R & _ & T). exists k, (l ++ t). left. split; [exact O|]. intros c1 F. apply in_app_or in F. destruct F as [F|F]; [exact (no_begin_reaches _ _ _ _ _ _ R F)|].
      destruct T as [-> | [-> _]]; [destruct F as [F|[]]; discriminate F|destruct F].
    - destruct O as (l & t & O & R & T). exists k, (l ++ t). left. split; [exact O|]. intros c1 F. apply in_app_or in F. destruct F as [F|F]; [exact (no_begin_reaches _ _ _ _ _ _ R F)|exact (no_begin_round _ _ _ _ _ _ _ T F)].
    - destruct O as (r & l & t & O & _ & _ & R & T). exists k, (l ++ t). left. split; [exact O|]. intros c1 F. apply in_app_or in F. destruct F as [F|F]; [exact (no_begin_reaches _ _ _ _ _ _ R F)|exact (no_begin_round _ _ _ _ _ _ _ T F)].
    - destruct O as (k & l & O & R). exists k, (l ++ [ORet g]). left. split; [exact O|]. intros c1 F. apply in_app_or in F. destruct F as [F|[F|[]]]; [|discriminate F].
      destruct R as [r l t R T|r l t R _ T]; apply in_app_or in F; destruct F as [F|F]; try exact (no_begin_reaches _ _ _ _ _ _ R F); try exact (no_begin_round _ _ _ _ _ _ _ T F).
      apply in_app_or in F. destruct F as [F|[F|[]]]; [exact (no_begin_round _ _ _ _ _ _ _ T F)|discriminate F].
    - destruct O as (k & l & st & O & F0). exists k, (l ++ [OMade g st None; OCrash g]). left. split; [exact O|]. intros c1 F. apply in_app_or in F.
      destruct F as [F|[F|[F|[]]]]; try discriminate F. exact (not_inner _ _ F0 F). }
  destruct X as (c0 & l & [[-> N]| ->]); [|destruct A]. destruct A as [A|A]; [|destruct (N _ A)]. destruct B as [B|B]; [|destruct (N _ B)]. congruence.
Qed.
Definition cov (s : state) (g : nat) : Prop :=
  match pcs (world s) g with
  | LFresh | LBegun _ | LMissed _ | LMade _ _ | LCrashed => True
  | LOver => forall c, In (OBegin g c) (mine g (obs (world s))) -> byEvent s (cname c) <> None
  | LRedirected c _ | LMissedPlace c _ | LMadePlace c _ | LRound c _ | LOut c _ _ | LStats c _ _ | LPanicked c _ | LUnknown c _ => byEvent s (cname c) <> None
  end.
Lemma ok_begin : forall all g x m, ok all g x m ->
  match x with
  | LBegun c | LMissed c | LMade c _ | LRedirected c _ | LMissedPlace c _ | LMadePlace c _ | LRound c _ | LOut c _ _ | LStats c _ _ | LPanicked c _ | LUnknown c _ => In (OBegin g c) m
  | _ => True
  end.
Proof.
  intros all g x m O. destruct x as [|k|k|k r|k st|k st|k r|k r|k r next|k r h|k r|k st| | ]; cbn [ok] in O; try exact Logic.I.
  - rewrite O. left. reflexivity.
  - rewrite O. left. reflexivity.
  - destruct O as (-> & _). left. reflexivity.
  - destruct O as (-> & _). left. reflexivity.
  - destruct O as (-> & _). left. reflexivity.
  - destruct O as (-> & _). left. reflexivity.
  - destruct O as (l & -> & _). left. reflexivity.
  - destruct O as (l & -> & _). left. reflexivity.
  - destruct O as (l & t & -> & _). left. reflexivity.
  - destruct O as (l & t & -> & _). left. reflexivity.
  - destruct O as (r & l & t & -> & _). left. reflexivity.
Qed.
Lemma cov_step : forall s e s' g, inv s -> step s e = Some s' -> cov s g -> cov s' g.
Proof.
  intros s e s' g Hi E C. pose proof (inv_step s e s' Hi E) as Hi'. pose proof (step_rank s e s' g Hi E) as Rk. destruct (step_of g e) eqn:So.
  - clear Rk. assert (Old : forall c, In (OBegin g c) (mine g (obs (world s))) -> In (OBegin g c) (mine g (obs (world s')))).
    { intros c H. destruct e as [l|v c0|v|v a|v|v|v b|v b|v]; cbn [step] in E; [injection E as <-; cbn [world obs]; rewrite mine_app; apply in_or_app; auto| | | | | | | | ];
        destruct (pcs (world s) v) eqn:Q; try discriminate E;
        repeat match type of E with context [match ?x with _ => _ end] => destruct x; try discriminate E end;
        injection E as <-; try (match goal with |- context [makes] => unfold makes; destruct a as [[? ?]|] end); cbn [world obs storeEvent storePlace go setWorld]; rewrite mine_app; apply in_or_app; left; exact H. }
    pose proof (ok_begin _ _ _ _ (i_pc s Hi g)) as Bg.
    assert (Fin : forall c, In (OBegin g c) (mine g (obs (world s))) -> byEvent s' (cname c) <> None -> forall c', In (OBegin g c') (mine g (obs (world s'))) -> byEvent s' (cname c') <> None).
    { intros c H1 H2 c' H3. rewrite <- (begin_one _ _ _ _ _ _ (i_pc s' Hi' g) (Old _ H1) H3). exact H2. }
    pose proof (fun n => cached_up n s e s' E) as Up. unfold cov in *.
    destruct e as [l|v c|v|v a|v|v|v b|v b|v]; cbn [step_of] in So; try discriminate So; apply Nat.eqb_eq in So; subst v; cbn [step] in E;
      destruct (pcs (world s) g) as [|k|k|k r|k st|k st|k r|k r|k r next|k r h|k r|k st| | ] eqn:Q; try discriminate E;
      repeat match type of E with context [match ?x with _ => _ end] => let H := fresh "D" in destruct x eqn:H; try discriminate E end;
      injection E as <-; try (match goal with |- context [makes] => unfold makes in *; destruct a as [[? ?]|] end);
      cbn [world pcs storeEvent storePlace go setWorld]; rewrite Nat.eqb_refl; try exact Logic.I; try (apply (Up _ C)); try (cbn; congruence); try (exact (Fin _ Bg (Up _ C))).
    cbn. rewrite bytes_eqb_refl. discriminate.
  - unfold cov in *. rewrite Rk. assert (Same : mine g (obs (world s')) = mine g (obs (world s))).
    { destruct e as [l|v c0|v|v a|v|v|v b|v b|v]; cbn [step_of] in So; cbn [step] in E; [injection E as <-; cbn [world obs]; rewrite mine_app; apply app_nil_r| | | | | | | | ];
        destruct (pcs (world s) v) eqn:Q; try discriminate E;
        repeat match type of E with context [match ?x with _ => _ end] => destruct x; try discriminate E end;
        injection E as <-; try (match goal with |- context [makes] => unfold makes; destruct a as [[? ?]|] end); cbn [world obs storeEvent storePlace go setWorld]; rewrite mine_app;
        cbn [mine filter of_call]; rewrite ?So; apply app_nil_r. }
    rewrite Same. destruct (pcs (world s) g); try exact Logic.I; try (exact (cached_up _ _ _ _ E C)). intros c H. exact (cached_up _ _ _ _ E (C c H)).
Qed.
Lemma cov_run : forall g evs s, run init evs = Some s -> cov s g.
Proof.
  intros g evs s R. assert (X : forall evs s0 s1, inv s0 -> cov s0 g -> run s0 evs = Some s1 -> cov s1 g).
  { clear. induction evs as [|e evs IH]; intros s0 s1 Hi C R; cbn in R; [injection R as <-; exact C|]. destruct (step s0 e) as [s2|] eqn:E; [|discriminate R].
    exact (IH _ _ (inv_step _ _ _ Hi E) (cov_step _ _ _ _ Hi E C) R). }
  exact (X _ _ _ inv_init Logic.I R).
Qed.
Definition some_bad (all : list ob) : Prop := exists o, In o all /\ bad o = true.
Definition calm (n : bytes) (s : state) (g : nat) : Prop :=
  (forall c st a, In (OBegin g c) (mine g (obs (world s))) -> cname c = n -> In (OMade g st a) (mine g (obs (world s))) -> some_bad (obs (world s))) /\
  match pcs (world s) g with LMissed c | LMade c _ => cname c <> n | _ => True end.
Lemma panicked_bad : forall all r, panicked all r -> some_bad all.
Proof. intros all r (g & [H|(h & _ & H)]); eexists; (split; [exact H|reflexivity]). Qed.
Lemma round_bad : forall all g c r t, round all g c r t false -> exists o, In o t /\ bad o = true.
Proof. intros all g c r t H. destruct (round_nums _ _ _ _ _ _ H) as (_ & _ & _ & _ & X). apply existsb_exists. exact (X eq_refl). Qed.
Lemma calm_step : forall n s e s' g, inv s -> byEvent s n <> None -> step s e = Some s' -> calm n s g -> calm n s' g.
Proof.
  intros n s e s' g Hi Ca E [C1 C2]. pose proof (i_pc s Hi g) as Og. pose proof (ok_begin _ _ _ _ Og) as Bg.
  assert (Go : forall v x l, Forall (fun o => of_call v o = true) l -> (v = g -> match x with LMissed c | LMade c _ => cname c <> n | _ => True end) ->
    (v = g -> forall o, In o l -> match o with OMade _ _ _ => forall c, In (OBegin g c) (mine g (obs (world s))) -> cname c = n -> some_bad (obs (world s)) | OBegin _ _ => False | _ => True end) ->
    forall s1, pcs (world s1) = pcs (world (go s v x l)) -> obs (world s1) = obs (world (go s v x l)) -> calm n s1 g).
  { intros v x l Hl Hx Hy s1 E1 E2. unfold calm. rewrite E1, E2. cbn [go setWorld world pcs obs]. rewrite mine_app. split.
    - assert (Inc : some_bad (obs (world s)) -> some_bad (obs (world s) ++ l)) by (intros (o & A & B); exists o; split; [apply in_or_app; auto|exact B]).
      destruct (Nat.eq_dec v g) as [->|N]; [|rewrite (mine_other v g l Hl (fun X => N (eq_sym X))), app_nil_r; intros c st a A B D; exact (Inc (C1 c st a A B D))].
      rewrite (mine_own g l Hl). intros c st a A B D. apply Inc. apply in_app_or in A. apply in_app_or in D. destruct A as [A|A].
      + destruct D as [D|D]; [exact (C1 c st a A B D)|]. exact (Hy eq_refl _ D c A B).
      + destruct (Hy eq_refl _ A).
    - destruct (Nat.eqb_spec g v) as [->|N]; [exact (Hx eq_refl)|exact C2]. }
  destruct e as [l|v c|v|v a|v|v|v b|v b|v]; cbn [step] in E.
  - injection E as <-. unfold calm. cbn [world obs pcs]. rewrite mine_app. cbn [mine filter of_call]. rewrite app_nil_r. split; [|exact C2].
    intros c st a A B D. destruct (C1 c st a A B D) as (o & X & Y). exists o. split; [apply in_or_app; auto|exact Y].
  - destruct (pcs (world s) v) eqn:P; try discriminate E. injection E as <-. unfold calm. cbn [go setWorld world pcs obs]. rewrite mine_app. destruct (Nat.eqb_spec g v) as [->|N].
    + split; [|exact Logic.I]. rewrite P in Og. cbn [ok] in Og. rewrite Og. cbn [mine filter of_call]. rewrite Nat.eqb_refl. intros c1 st a _ _ [D|[]]. discriminate D.
    + split; [|exact C2]. rewrite (mine_other v g [OBegin v c]); [|own_obs|exact N]. rewrite app_nil_r. intros c1 st a A B D. destruct (C1 c1 st a A B D) as (o & X & Y). exists o. split; [apply in_or_app; auto|exact Y].
  - destruct (pcs (world s) v) as [|c| | |c st1| | | | | | | | | ] eqn:P; try discriminate E.
    + destruct (byEvent s (cname c)) as [[r|s1]|] eqn:C; injection E as <-; (eapply Go; [| | |reflexivity|reflexivity]); try own_obs; try (intros _ o []); intros _; try exact Logic.I. intros <-. contradiction.
    + destruct (byPlace s (cfile c) (cline c)); injection E as <-; (eapply Go; [| | |reflexivity|reflexivity]); try own_obs; try (intros _ o []); intros _; exact Logic.I.
  - destruct (pcs (world s) v) as [| |c| | |c st1| | | | | |c st1| | ] eqn:P; try discriminate E; injection E as <-.
    + assert (K : v = g -> forall c0, In (OBegin g c0) (mine g (obs (world s))) -> cname c0 = n -> some_bad (obs (world s))).
      { intros -> c0 I1 X. rewrite P in C2, Bg. pose proof (begin_one _ _ _ _ _ _ Og Bg I1). subst c0. contradiction. }
      unfold makes. destruct a; (eapply Go; [| | |reflexivity|reflexivity]); try own_obs; try (intros Eq o [<-|[]]; exact (K Eq)); try (intros Eq o [<-|[<-|[]]]; [exact (K Eq)|exact Logic.I]); intros ->; try exact Logic.I.
      rewrite P in C2. exact C2.
    + assert (K : v = g -> forall c0, In (OBegin g c0) (mine g (obs (world s))) -> cname c0 = n -> some_bad (obs (world s))).
      { intros -> c0 I1 X. rewrite P in Og. destruct Og as (_ & _ & (r & _ & _ & Pa)). exact (panicked_bad _ _ Pa). }
      unfold makes. destruct a; (eapply Go; [| | |reflexivity|reflexivity]); try own_obs; try (intros Eq o [<-|[]]; exact (K Eq)); try (intros Eq o [<-|[<-|[]]]; [exact (K Eq)|exact Logic.I]); intros ->; exact Logic.I.
    + assert (K : v = g -> forall c0, In (OBegin g c0) (mine g (obs (world s))) -> cname c0 = n -> some_bad (obs (world s))).
      { intros -> c0 I1 X. rewrite P in Og. destruct Og as (r & l & t & M & _ & _ & _ & T). destruct (round_bad _ _ _ _ _ T) as (o & O1 & O2). exists o. split; [|exact O2].
        apply (mine_in g). rewrite M. right. apply in_or_app. right. exact O1. }
      unfold makes. destruct a; (eapply Go; [| | |reflexivity|reflexivity]); try own_obs; try (intros Eq o [<-|[]]; exact (K Eq)); try (intros Eq o [<-|[<-|[]]]; [exact (K Eq)|exact Logic.I]); intros ->; exact Logic.I.
  - destruct (pcs (world s) v) as [| | |c r| | |c r| | | | | | | ] eqn:P; try discriminate E; injection E as <-; (apply (Go v (LRound c r) []); [own_obs|intros _; exact Logic.I|intros _ o []|reflexivity|reflexivity]).
  - destruct (pcs (world s) v) as [| | | | | | |c r| | | | | | ] eqn:P; try discriminate E.
    destruct (r_stats r); [destruct (_ <=? _)|]; injection E as <-; (eapply Go; [| | |reflexivity|reflexivity]); [own_obs|intros _; exact Logic.I|intros _ o []|own_obs|intros _; exact Logic.I|intros _ o []|own_obs|intros _; exact Logic.I|intros _ o []].
  - destruct (pcs (world s) v) as [| | | | | | | |c r next| | | | | ] eqn:P; try discriminate E.
    destruct b; [destruct next|]; injection E as <-; (eapply Go; [| | |reflexivity|reflexivity]); try own_obs; try (intros _; exact Logic.I); intros _ o I1; repeat (destruct I1 as [<-|I1]; [exact Logic.I|]); destruct I1.
  - destruct (pcs (world s) v) as [| | | | | | | | |c r h| | | | ] eqn:P; try discriminate E.
    destruct b; injection E as <-; (eapply Go; [| | |reflexivity|reflexivity]); try own_obs; try (intros _; exact Logic.I); intros _ o I1; repeat (destruct I1 as [<-|I1]; [exact Logic.I|]); destruct I1.
  - destruct (pcs (world s) v) as [| | | | | | | | | |c r| | | ] eqn:P; try discriminate E.
    destruct (r_mode r); injection E as <-.
    + apply (Go v (LUnknown c (r_site r)) []); [own_obs|intros _; exact Logic.I|intros _ o []|reflexivity|reflexivity].
    + eapply Go; [| | |reflexivity|reflexivity]; [own_obs|intros _; exact Logic.I|]. intros _ o I1; repeat (destruct I1 as [<-|I1]; [exact Logic.I|]); destruct I1.
Qed.
Lemma calm_run : forall n g evs s s', inv s -> byEvent s n <> None -> run s evs = Some s' -> calm n s g -> calm n s' g.
Proof.
  intros n g. induction evs as [|e evs IH]; intros s s' Hi Ca R C; cbn in R; [injection R as <-; exact C|]. destruct (step s e) as [s1|] eqn:E; [|discriminate R].
  exact (IH _ _ (inv_step _ _ _ Hi E) (cached_up _ _ _ _ E Ca) R (calm_step _ _ _ _ _ Hi Ca E C)).
Qed.

(** * What is seen of a call that is not over *)
Definition open_ (o : ob) : Prop := match o with OBegin _ _ => True | _ => inner o end.
Lemma ok_open : forall all g x m, ok all g x m -> match x with LOver | LCrashed => True | _ => Forall open_ m end.
Proof.
  assert (W : forall l, Forall inner l -> Forall open_ l) by (intros l F; eapply Forall_impl; [|exact F]; intros o; destruct o; cbn; tauto).
  intros all g x m O. destruct x as [|k|k|k r|k st|k st|k r|k r|k r next|k r h|k r|k st| | ]; cbn [ok] in O; try exact Logic.I.
  - rewrite O. constructor.
  - rewrite O. repeat constructor.
  - rewrite O. repeat constructor.
  - destruct O as (-> & _). repeat constructor.
  - destruct O as (-> & _). repeat constructor.
  - destruct O as (-> & _). repeat constructor.
  - destruct O as (-> & _). repeat constructor.
  - destruct O as (l & -> & R). constructor; [exact Logic.I|]. exact (W _ (inner_reaches _ _ _ _ _ R)).
  - destruct O as (l & -> & R & _). constructor; [exact Logic.I|]. exact (W _ (inner_reaches _ _ _ _ _ R)).
  - destruct O as (l & t & -> & R & _ & T). constructor; [exact Logic.I|]. apply Forall_app. split; [exact (W _ (inner_reaches _ _ _ _ _ R))|]. destruct T as [-> | [-> _]]; repeat constructor.
  - destruct O as (l & t & -> & R & T). constructor; [exact Logic.I|]. apply Forall_app. split; [exact (W _ (inner_reaches _ _ _ _ _ R))|exact (W _ (inner_round _ _ _ _ _ _ T))].
  - destruct O as (r & l & t & -> & _ & _ & R & T). constructor; [exact Logic.I|]. apply Forall_app. split; [exact (W _ (inner_reaches _ _ _ _ _ R))|exact (W _ (inner_round _ _ _ _ _ _ T))].
Qed.
Lemma served_no : forall all g c l, served all g c l -> forall v, ~ In (ORet v) l /\ ~ In (OCrash v) l.
Proof.
  intros all g c l H v. destruct H as [r l t R T|r l t R _ T].
  - pose proof (inner_reaches _ _ _ _ _ R) as A. pose proof (inner_round _ _ _ _ _ _ T) as B. assert (C : Forall inner (l ++ t)) by (apply Forall_app; auto). split; intro I1; exact (not_inner _ _ C I1).
  - pose proof (inner_reaches _ _ _ _ _ R) as A. pose proof (inner_round _ _ _ _ _ _ T) as B. assert (C : Forall inner (l ++ t)) by (apply Forall_app; auto). rewrite app_assoc.
    split; intro I1; apply in_app_or in I1; destruct I1 as [I1|[I1|[]]]; try discriminate I1; exact (not_inner _ _ C I1).
Qed.
Lemma returned : forall s g, inv s -> In (ORet g) (obs (world s)) -> exists c l, pcs (world s) g = LOver /\ mine g (obs (world s)) = OBegin g c :: l ++ [ORet g] /\ served (obs (world s)) g c l.
Proof.
  intros s g Hi I1. assert (I2 : In (ORet g) (mine g (obs (world s)))) by (apply filter_In; split; [exact I1|apply Nat.eqb_refl]).
  pose proof (i_pc s Hi g) as O. pose proof (ok_open _ _ _ _ O) as P.
  destruct (pcs (world s) g); try (exfalso; rewrite Forall_forall in P; exact (P _ I2)).
  - destruct O as (c & l & A & B). exists c, l. auto.
  - destruct O as (c & l & st & A & F). exfalso. rewrite A in I2. destruct I2 as [I2|I2]; [discriminate I2|]. apply in_app_or in I2. destruct I2 as [I2|[I2|[I2|[]]]]; try discriminate I2.
    exact (not_inner _ _ F I2).
Qed.
Lemma crashed : forall s g, inv s -> In (OCrash g) (obs (world s)) -> exists st, In (OMade g st None) (obs (world s)).
Proof.
  intros s g Hi I1. assert (I2 : In (OCrash g) (mine g (obs (world s)))) by (apply filter_In; split; [exact I1|apply Nat.eqb_refl]).
  pose proof (i_pc s Hi g) as O. pose proof (ok_open _ _ _ _ O) as P.
  destruct (pcs (world s) g); try (exfalso; rewrite Forall_forall in P; exact (P _ I2)).
  - destruct O as (c & l & A & B). exfalso. rewrite A in I2. destruct I2 as [I2|I2]; [discriminate I2|]. apply in_app_or in I2. destruct I2 as [I2|[I2|[]]]; [|discriminate I2].
    exact (proj2 (served_no _ _ _ _ B g) I2).
  - destruct O as (c & l & st & A & F). exists st. apply (mine_in g). rewrite A. right. apply in_or_app. right. left. reflexivity.
Qed.
