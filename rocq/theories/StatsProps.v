(** Properties C34, C35, C53, C54: the statistics of countlog. *)
From Verif Require Import Base MsgfmtModel StatsModel StatsSpec StatsProofs.
Open Scope Z_scope.
Open Scope list_scope.

(** * C34 *)
(** Whatever the interleaving, what was exported for a dimension and what is in memory add up to what was counted, as long as
    float64 holds the numbers exactly. *)
Theorem C34_conserved_partial : forall indices evs s d, run indices newWindow evs = Some s -> counted evs d <= 2 ^ 53 ->
  exported evs d + in_memory s d = counted evs d.
Proof. intros indices evs s d R L. exact (proj1 (conserved indices evs s R d L)). Qed.

(** An export that begins after the last event and returns leaves nothing behind. *)
Theorem C34_flushed_partial : forall indices evs1 x evs2 s d, run indices newWindow (evs1 ++ XCall x :: evs2) = Some s ->
  nothing_counted evs2 -> xs s x = XReturned -> counted (evs1 ++ XCall x :: evs2) d <= 2 ^ 53 ->
  exported (evs1 ++ XCall x :: evs2) d = counted (evs1 ++ XCall x :: evs2) d.
Proof.
  intros indices evs1 x evs2 s d R N E L. rewrite <- (C34_conserved_partial _ _ _ _ R L). rewrite (flushed _ _ _ _ _ R N E). lia.
Qed.

(** Two calls are never at work on the same shard. *)
Theorem C34_exclusive : forall indices evs s i, run indices newWindow evs = Some s ->
  (forall h h', hshard (hs s h) = Some i -> hshard (hs s h') = Some i -> h = h') /\
  (forall x x', xshard (xs s x) = Some i -> xshard (xs s x') = Some i -> x = x') /\
  (forall h x, hshard (hs s h) = Some i -> xshard (xs s x) = Some i -> False).
Proof.
  intros indices evs s i R. pose proof (lk_own _ (locked_run _ _ _ R)) as L. repeat split.
  - intros h h' A B. apply (L i (ByHandle h)) in A. apply (L i (ByHandle h')) in B. congruence.
  - intros h h' A B. apply (L i (ByExport h)) in A. apply (L i (ByExport h')) in B. congruence.
  - intros h x A B. apply (L i (ByHandle h)) in A. apply (L i (ByExport x)) in B. congruence.
Qed.

(** The dimension of an event: its properties named by the last "dim" property of the first event, keys and values, if the
    event has the keys of the first one at the same places and the named values are strings. *)
Theorem C34_dimension : forall before names after kvs strs,
  let sample := before ++ (bs "dim", VStr (joined names)) :: after in
  names <> [] -> Forall (fun n => ~ In 44 n) names ->
  Forall (fun kv => fst kv = bs "dim" -> exists s, snd kv = VStr s) before -> Forall (fun kv => fst kv <> bs "dim") after ->
  map fst kvs = map fst sample ->
  Forall2 (fun kv s => fst s = fst kv /\ (In (fst kv) names -> snd kv = VStr (snd s))) kvs strs ->
  exists indices, HandlerOf true (bs "counter") (flat sample) = (true, AggCount indices) /\
    extract indices (flat kvs) = Some (dimension names strs).
Proof.
  intros before names after kvs strs sample N F B A K X.
  destruct (indices_extract names sample 0 [] eq_refl kvs K strs X) as (idx & P & Q). exists idx. split; [|exact Q].
  assert (E : newDimensionExtractor (flat sample) = Some idx).
  { unfold newDimensionExtractor. assert (W : findDim [] (flat sample) = Some names); [|rewrite W; exact P].
    unfold sample, flat. rewrite flat_map_app. fold (flat before).
    change (flat_map (fun kv : bytes * value => [VStr (fst kv); snd kv]) ((bs "dim", VStr (joined names)) :: after))
      with (VStr (bs "dim") :: VStr (joined names) :: flat after).
    destruct (findDim_app before [] (VStr (bs "dim") :: VStr (joined names) :: flat after) B) as (acc & ->).
    cbn [findDim]. destruct (bytes_eqb_spec (bs "dim") (bs "dim")); [|congruence].
    rewrite splitComma_joined by auto. destruct names as [|n names]; [congruence|]. cbn [app]. now apply findDim_none. }
  change (HandlerOf true (bs "counter") (flat sample)) with (match newDimensionExtractor (flat sample) with None => (false, AggPanics) | Some i => (true, AggCount i) end).
  rewrite E. reflexivity.
Qed.

(** Full claim, without a bound.  It is false of the code: float64 does not hold 2^53 + 1. *)
Definition C34_full : Prop := forall indices evs s d, run indices newWindow evs = Some s -> exported evs d + in_memory s d = counted evs d.

Fixpoint many (n : nat) : list event :=
  match n with O => [] | S n => many n ++ [HLock n 0 []; HExtract n (Some []); HUnlock n] end.
Lemma many_run : forall n, Z.of_nat n < 2 ^ 64 -> exists s, run [] newWindow (many n) = Some s /\
  shards s 0%nat = match n with O => [] | _ => [([], Z.of_nat n)] end /\ locks s 0%nat = None /\ (forall h, (n <= h)%nat -> hs s h = HFresh) /\
  counted (many n) [] = Z.of_nat n /\ exported (many n) [] = 0 /\ xs s = xs newWindow /\ (forall i, (0 < i)%nat -> shards s i = [] /\ locks s i = None).
Proof.
  induction n as [|n IH]; intros L.
  - exists newWindow. repeat split; reflexivity.
  - destruct (IH ltac:(lia)) as (s & R & A & B & C & D & E & F & G).
    assert (W : increment (shards s 0%nat) [] = [([], Z.of_nat (S n))]).
    { rewrite A. destruct n; [reflexivity|]. cbn [increment]. rewrite key_eqb_refl. unfold uint64. rewrite Z.mod_small by lia. repeat f_equal. lia. }
    eexists. split; [|split; [|split; [|split; [|split; [|split; [|split]]]]]].
    + cbn [many]. rewrite run_app, R. cbn [run step shardOf]. change (shardOf 0) with 0%nat. rewrite (C n) by lia. rewrite B. cbn [hs]. rewrite upd_same.
      cbn [extract option_key_eqb]. rewrite key_eqb_refl. cbn [hs]. rewrite upd_same. reflexivity.
    + cbn [shards]. rewrite upd_same. exact W.
    + apply upd_same.
    + intros h Q. cbn [hs]. rewrite !upd_other by lia. apply C. lia.
    + cbn [many]. rewrite counted_app, D. cbn. lia.
    + cbn [many]. rewrite exported_app, E. reflexivity.
    + exact F.
    + intros i Q. cbn [shards locks]. rewrite !upd_other by lia. now apply G.
Qed.
Theorem C34_precision_refuted : exists evs s, run [] newWindow evs = Some s /\
  counted evs [] = 2 ^ 53 + 1 /\ in_memory s [] = 0 /\ exported evs [] = 2 ^ 53.
Proof.
  destruct (many_run (Z.to_nat (2 ^ 53 + 1)) ltac:(rewrite Z2Nat.id; lia)) as (s & R & A & B & _ & D & E & F & G).
  rewrite Z2Nat.id in D, A by lia.
  destruct (Z.to_nat (2 ^ 53 + 1)) as [|n] eqn:N; [lia|].
  exists (many (S n) ++ [XCall 0; XLock 0; XCollect 0 (mkPoint [] [] (2 ^ 53)); XUnlock 0]). eexists. split; [|split; [|split]].
  - rewrite run_app, R. cbn [run step]. rewrite F. cbn [xs newWindow]. rewrite upd_same. cbn [locks]. rewrite B. cbn [xs]. rewrite upd_same.
    cbn [shards]. rewrite A. cbn [map fst existsb Dimension get]. rewrite !key_eqb_refl. cbn [orb].
    change (point_eqb (mkPoint [] [] (2 ^ 53)) (mkPoint [] [] (float64 (2 ^ 53 + 1)))) with true. cbn match.
    cbn [xs]. rewrite upd_same. cbn [remove_key]. rewrite key_eqb_refl. reflexivity.
  - rewrite counted_app, D. cbn [counted]. lia.
  - unfold in_memory. cbn [shards seq map fold_right].
    rewrite upd_same. rewrite !upd_other by lia.
    repeat match goal with |- context [shards s ?i] => rewrite (proj1 (G i ltac:(lia))) end. reflexivity.
  - rewrite exported_app, E. cbn [exported Dimension Value]. reflexivity.
Qed.
Theorem C34_full_refuted : ~ C34_full.
Proof. intros F. destruct C34_precision_refuted as (evs & s & R & C & M & X). specialize (F _ _ _ [] R). lia. Qed.

(** * C35 *)
Definition C35_full : Prop := forall n, exists evs s, gruns newExporter evs = Some s /\ (n <= exports evs)%nat.
(** One export at most ever begins. *)
Theorem C35_once_partial : forall evs s, gruns newExporter evs = Some s -> (exports evs <= 1)%nat.
Proof. intros evs s H. apply gruns_exports in H. cbn in H. lia. Qed.
Theorem C35_full_refuted : ~ C35_full.
Proof. intros F. destruct (F 2%nat) as (evs & s & R & L). apply C35_once_partial in R. lia. Qed.

(** * C53 *)
(** Full claim: an event never leaves a shard locked for good.  It is false of the code. *)
Definition C53_full : Prop := forall indices evs s i, run indices newWindow evs = Some s ->
  exists evs' s', run indices s evs' = Some s' /\ locks s' i = None.

(** As long as the dimension properties of all events are strings, every lock can be released. *)
Theorem C53_released_partial : forall indices evs s i, run indices newWindow evs = Some s ->
  (forall h, hs s h <> HPanicked i) -> (forall h p, hs s h = HLocked i p -> extract indices p <> None) ->
  exists evs' s', run indices s evs' = Some s' /\ locks s' i = None.
Proof. intros indices evs s i R. apply releasable. exact (locked_run _ _ _ R). Qed.

(** The panic happens exactly when a dimension property is missing or not a string. *)
Theorem C53_panic_iff : forall indices s h i p, hs s h = HLocked i p ->
  ((exists s', step indices s (HExtract h None) = Some s' /\ hs s' h = HPanicked i) <->
   exists j, In j indices /\ forall x, nth_error p j <> Some (VStr x)).
Proof.
  intros indices s h i p H. rewrite <- extract_none. cbn [step]. rewrite H. split.
  - intros (s' & E & _). destruct (extract indices p); [discriminate E|reflexivity].
  - intros ->. cbn [option_key_eqb]. eexists. split; [reflexivity|]. apply upd_same.
Qed.

(** After such a panic the shard stays locked whatever happens: no event of a goroutine with that shard gets past the lock, and no
    export gets past the shard. *)
Theorem C53_blocked_refuted : forall indices evs s h i, run indices newWindow evs = Some s -> hs s h = HPanicked i ->
  forall evs' s', run indices s evs' = Some s' ->
  (forall h' goid p, shardOf goid = i -> step indices s' (HLock h' goid p) = None) /\
  (forall x, xs s' x = XBefore i -> step indices s' (XLock x) = None) /\ locks s' i <> None.
Proof.
  intros indices evs s h i R H evs' s' R'. pose proof (blocked _ _ _ _ _ _ _ R H R') as L. repeat split.
  - intros h' goid p E. cbn [step]. rewrite E, L. destruct (hs s' h'); reflexivity.
  - intros x E. cbn [step]. rewrite E, L. reflexivity.
  - congruence.
Qed.
Theorem C53_full_refuted : ~ C53_full.
Proof.
  intros F.
  set (evs := [HLock 0 7 [VStr (bs "user"); VAny 2 5]; HExtract 0 None]).
  destruct (run [0%nat; 1%nat] newWindow evs) as [s|] eqn:R; [|vm_compute in R; discriminate R].
  assert (H : hs s 0%nat = HPanicked 7) by (injection R as <-; reflexivity).
  destruct (F _ _ _ 7%nat R) as (evs' & s' & R' & L).
  now destruct (C53_blocked_refuted _ _ _ _ _ R H _ _ R') as (_ & _ & N).
Qed.

(** * C54 *)
(** Full claim: a point tells the (not empty) name of its event.  It is false of the code. *)
Definition C54_full : Prop := forall indices evs s x p, run indices newWindow evs = Some s -> In (XCollect x p) evs -> Event p <> [].
(** No point tells its event. *)
Theorem C54_unnamed_refuted : forall indices evs s x p, run indices newWindow evs = Some s -> In (XCollect x p) evs -> Event p = [].
Proof. intros. eapply points_unnamed; eauto. Qed.
Theorem C54_full_refuted : ~ C54_full.
Proof.
  intros F.
  set (evs := [HLock 0 0 []; HExtract 0 (Some []); HUnlock 0; XCall 0; XLock 0; XCollect 0 (mkPoint [] [] 1)]).
  destruct (run [] newWindow evs) as [s|] eqn:R; [|vm_compute in R; discriminate R].
  apply (F [] evs s 0%nat (mkPoint [] [] 1) R); [|reflexivity]. do 5 right. left. reflexivity.
Qed.
(** An event that asks for another aggregation (as XxxCall does, with "call") gets no handler, but a window is made for it and a goroutine
    started. *)
Theorem C54_unknown_aggregation : forall agg sample indices, agg <> [] -> agg <> bs "counter" -> newDimensionExtractor sample = Some indices ->
  HandlerOf true agg sample = (true, AggNil).
Proof.
  intros agg sample indices N C E. unfold HandlerOf. destruct (bytes_eqb_spec agg []); [congruence|]. cbn [negb].
  unfold createHandler. cbn [negb]. rewrite E. destruct (bytes_eqb_spec agg (bs "counter")); [congruence|reflexivity].
Qed.
(** Without a collector every aggregation is the one that does nothing. *)
Theorem C54_no_collector : forall agg sample, agg <> [] -> HandlerOf false agg sample = (false, AggDummy).
Proof. intros agg sample N. unfold HandlerOf. destruct (bytes_eqb_spec agg []); [congruence|reflexivity]. Qed.

Print Assumptions C34_conserved_partial.
Print Assumptions C34_flushed_partial.
Print Assumptions C34_exclusive.
Print Assumptions C34_dimension.
Print Assumptions C34_precision_refuted.
Print Assumptions C34_full_refuted.
Print Assumptions C35_once_partial.
Print Assumptions C35_full_refuted.
Print Assumptions C53_released_partial.
Print Assumptions C53_panic_iff.
Print Assumptions C53_blocked_refuted.
Print Assumptions C53_full_refuted.
Print Assumptions C54_unnamed_refuted.
Print Assumptions C54_full_refuted.
Print Assumptions C54_unknown_aggregation.
Print Assumptions C54_no_collector.

(** * Examples *)
Definition ex_props (v : string) : list value := [VStr (bs "user"); VStr (bs v)].
Definition ex_export (x : nat) (from n : nat) : list event :=
  flat_map (fun _ => [XLock x; XUnlock x]) (seq from n).
(** Two goroutines on two shards, an export between their events, one after. *)
Definition ex_events : list event :=
  [HLock 0 3 (ex_props "a"); XCall 0; HExtract 0 (Some [bs "user"; bs "a"]); HLock 1 5 (ex_props "a"); HUnlock 0] ++ ex_export 0 0 3 ++
  [XLock 0; HExtract 1 (Some [bs "user"; bs "a"]); XCollect 0 (mkPoint [] [bs "user"; bs "a"] 1); XUnlock 0; HUnlock 1] ++
  [HLock 2 19 (ex_props "b"); HExtract 2 (Some [bs "user"; bs "b"]); HUnlock 2].
Definition ex_last : list event :=
  ex_export 1 0 3 ++ [XLock 1; XCollect 1 (mkPoint [] [bs "user"; bs "b"] 1); XCollect 1 (mkPoint [] [bs "user"; bs "a"] 0); XUnlock 1] ++ ex_export 1 4 1 ++
  [XLock 1; XCollect 1 (mkPoint [] [bs "user"; bs "a"] 1); XUnlock 1] ++ ex_export 1 6 10.
Example C34_example : exists s, run [0%nat; 1%nat] newWindow ex_events = Some s /\
  (counted ex_events [bs "user"; bs "a"], exported ex_events [bs "user"; bs "a"], in_memory s [bs "user"; bs "a"],
   counted ex_events [bs "user"; bs "b"], exported ex_events [bs "user"; bs "b"], in_memory s [bs "user"; bs "b"]) = (2, 1, 1, 1, 0, 1).
Proof. eexists. split; [vm_compute; reflexivity|vm_compute; reflexivity]. Qed.
Example C34_flushed_example : exists s, run [0%nat; 1%nat] newWindow (ex_events ++ XCall 1 :: ex_last) = Some s /\ xs s 1%nat = XReturned /\
  exported (ex_events ++ XCall 1 :: ex_last) [bs "user"; bs "a"] = 2.
Proof. eexists. split; [vm_compute; reflexivity|]. split; vm_compute; reflexivity. Qed.
Example C34_dimension_example :
  HandlerOf true (bs "counter") (flat [(bs "n", VAny 1 1); (bs "user", VStr (bs "x")); (bs "dim", VStr (bs "city,user")); (bs "city", VStr (bs "y"))]) = (true, AggCount [2; 3; 6; 7]%nat) /\
  extract [2; 3; 6; 7]%nat (flat [(bs "n", VAny 1 2); (bs "user", VStr (bs "u")); (bs "dim", VStr []); (bs "city", VStr (bs "c"))]) =
    Some (dimension [bs "city"; bs "user"] [(bs "n", []); (bs "user", bs "u"); (bs "dim", []); (bs "city", bs "c")]) /\
  joined [bs "city"; bs "user"] = bs "city,user" /\
  dimension [bs "city"; bs "user"] [(bs "n", []); (bs "user", bs "u"); (bs "dim", []); (bs "city", bs "c")] = [bs "user"; bs "u"; bs "city"; bs "c"].
Proof. vm_compute. repeat split. Qed.
Example C35_example : exists s, gruns newExporter [TimerFires; ExportBegins; ContextDone; ExportEnds; GReturns] = Some s /\ epc s = GOver.
Proof. eexists. split; [vm_compute; reflexivity|reflexivity]. Qed.
Example C53_example : exists s, run [0%nat; 1%nat] newWindow (ex_events ++ [HLock 3 3 [VStr (bs "user"); VAny 2 5]; HExtract 3 None; HLock 4 20 (ex_props "c")]) = Some s /\
  hs s 3%nat = HPanicked 3 /\ locks s 4%nat = Some (ByHandle 4) /\ (forall h, hs s h <> HPanicked 4).
Proof.
  eexists. split; [vm_compute; reflexivity|]. split; [reflexivity|]. split; [reflexivity|].
  intros h. cbn. unfold upd. repeat match goal with |- context [if ?x then _ else _] => destruct x; try discriminate end.
Qed.
Example C54_example : HandlerOf true (bs "call") [VStr (bs "k"); VAny 1 1] = (true, AggNil).
Proof. reflexivity. Qed.

(** ** How exportEverySecond ends and begins *)
Lemma gruns_app : forall a b s s', gruns s (a ++ b) = Some s' -> exists m, gruns s a = Some m /\ gruns m b = Some s'.
Proof.
  induction a as [|e a IH]; intros b s s' H; [exists s; auto|]. cbn [app gruns] in H |- *. destruct (gstep s e); [|discriminate H]. now apply IH.
Qed.
Lemma gruns_done : forall a s s', gruns s a = Some s' -> edone s' = true -> edone s = true \/ In ContextDone a.
Proof.
  induction a as [|e a IH]; intros s s' H D; [injection H as <-; auto|]. cbn [gruns] in H. destruct (gstep s e) as [m|] eqn:E; [|discriminate H].
  destruct (IH _ _ H D) as [L|L]; [|right; now right].
  destruct e; cbn [gstep] in E; repeat match type of E with match ?x with _ => _ end = Some _ => destruct x eqn:?; try discriminate E end;
    injection E as <-; cbn [edone] in *; auto. right. now left.
Qed.
Lemma gruns_fired : forall a s s', gruns s a = Some s' -> etimer s' = Fired -> etimer s = Fired \/ In TimerFires a.
Proof.
  induction a as [|e a IH]; intros s s' H D; [injection H as <-; auto|]. cbn [gruns] in H. destruct (gstep s e) as [m|] eqn:E; [|discriminate H].
  destruct (IH _ _ H D) as [L|L]; [|right; now right].
  destruct e; cbn [gstep] in E; repeat match type of E with match ?x with _ => _ end = Some _ => destruct x eqn:?; try discriminate E end;
    injection E as <-; cbn [etimer] in *; auto; try discriminate L. right. now left.
Qed.
(** The goroutine ends only when its context is done, nothing is exported before the second is over, and a goroutine that waits can end then. *)
Theorem C35_ends : forall a b s, gruns newExporter (a ++ GReturns :: b) = Some s -> In ContextDone a.
Proof.
  intros a b s H. destruct (gruns_app _ _ _ _ H) as (m & A & B). cbn [gruns gstep] in B.
  destruct (epc m); try discriminate B. destruct (edone m) eqn:D; [|discriminate B].
  destruct (gruns_done _ _ _ A D) as [L|L]; [discriminate L|exact L].
Qed.
Theorem C35_begins : forall a b s, gruns newExporter (a ++ ExportBegins :: b) = Some s -> In TimerFires a.
Proof.
  intros a b s H. destruct (gruns_app _ _ _ _ H) as (m & A & B). cbn [gruns gstep] in B.
  destruct (epc m); try discriminate B. destruct (etimer m) eqn:D; try discriminate B.
  destruct (gruns_fired _ _ _ A D) as [L|L]; [discriminate L|exact L].
Qed.
Theorem C35_can_end : forall a s, gruns newExporter a = Some s -> epc s = GSelect -> exists s', gruns newExporter (a ++ [ContextDone; GReturns]) = Some s' /\ epc s' = GOver.
Proof.
  assert (L : forall a s s', gruns s a = Some s' -> epc s' = GSelect -> exists s'', gruns s (a ++ [ContextDone; GReturns]) = Some s'' /\ epc s'' = GOver).
  { induction a as [|e a IH]; intros s s' H P.
    - injection H as ->. cbn [app gruns gstep epc edone]. rewrite P. cbn [etimer edone]. eexists. split; reflexivity.
    - cbn [app gruns] in H |- *. destruct (gstep s e); [|discriminate H]. eapply IH; eassumption. }
  intros a s. apply L.
Qed.
Print Assumptions C35_ends.
Print Assumptions C35_begins.
Print Assumptions C35_can_end.
Example C35_ends_example : exists s, gruns newExporter ([TimerFires; ExportBegins; ContextDone; ExportEnds] ++ GReturns :: []) = Some s /\
  gruns newExporter ([TimerFires] ++ ExportBegins :: [ExportEnds]) <> None.
Proof. eexists. split; [reflexivity|discriminate]. Qed.
Example C35_can_end_example : exists s, gruns newExporter [TimerFires; ExportBegins; ExportEnds] = Some s /\ epc s = GSelect.
Proof. eexists. split; reflexivity. Qed.

(** ** What HandlerOf gives, for every site *)
Lemma findAgg_flat : forall l, findAgg (flat l) = match asked [] l with None => Some None | Some (VStr a) => Some (Some a) | Some _ => None end.
Proof.
  induction l as [|[k v] l IH]; [reflexivity|]. change (flat ((k, v) :: l)) with (VStr k :: v :: flat l). cbn [findAgg asked find fst].
  destruct (bytes_eqb_spec k (bs "agg")) as [E|E]; destruct (list_eq_dec Z.eq_dec k (bs "agg")) as [F|F]; try congruence.
  - cbn [option_map snd]. destruct v; reflexivity.
  - exact IH.
Qed.
Lemma findDim_panics : forall l acc k v, In (k, v) l -> k = bs "dim" -> (forall s, v <> VStr s) -> findDim acc (flat l) = None.
Proof.
  induction l as [|[k0 v0] l IH]; intros acc k v H K V; [destruct H|]. change (flat ((k0, v0) :: l)) with (VStr k0 :: v0 :: flat l). cbn [findDim].
  destruct H as [H|H].
  - injection H as -> ->. destruct (bytes_eqb_spec k (bs "dim")); [|congruence]. destruct v; try reflexivity. exfalso. eapply V. reflexivity.
  - destruct (bytes_eqb_spec k0 (bs "dim")); [destruct v0; try reflexivity|]; eapply IH; eauto.
Qed.
Lemma findIndices_flat : forall names l i, findIndices names i (flat l) <> None.
Proof.
  induction l as [|[k v] l IH]; intros i; [discriminate|]. change (flat ((k, v) :: l)) with (VStr k :: v :: flat l). cbn [findIndices].
  specialize (IH (i + 2)%nat). destruct (findIndices names (i + 2) (flat l)); [discriminate|congruence].
Qed.
Theorem C54_handler : forall (collector : bool) agg l,
  match asked agg l with
  | None => HandlerOf collector agg (flat l) = (false, AggNil)
  | Some (VStr a) =>
    if collector then
      (Forall (fun kv => fst kv = bs "dim" -> exists s, snd kv = VStr s) l ->
        exists indices, HandlerOf collector agg (flat l) = (true, if list_eq_dec Z.eq_dec a (bs "counter") then AggCount indices else AggNil)) /\
      (forall v, In (bs "dim", v) l -> (forall s, v <> VStr s) -> HandlerOf collector agg (flat l) = (false, AggPanics))
    else HandlerOf collector agg (flat l) = (false, AggDummy)
  | Some _ => HandlerOf collector agg (flat l) = (false, AggPanics)
  end.
Proof.
  intros collector agg l.
  assert (M : forall a, if collector then
      (Forall (fun kv => fst kv = bs "dim" -> exists s, snd kv = VStr s) l ->
        exists indices, createHandler collector a (flat l) = (true, if list_eq_dec Z.eq_dec a (bs "counter") then AggCount indices else AggNil)) /\
      (forall v, In (bs "dim", v) l -> (forall s, v <> VStr s) -> createHandler collector a (flat l) = (false, AggPanics))
    else createHandler collector a (flat l) = (false, AggDummy)).
  { intros a. destruct collector; [|reflexivity]. unfold createHandler. cbn [negb]. unfold newDimensionExtractor. split.
    - intros F. destruct (findDim_app l [] [] F) as (acc & E). rewrite app_nil_r in E. rewrite E. cbn [findDim obind].
      pose proof (findIndices_flat acc l 0) as N. destruct (findIndices acc 0 (flat l)) as [idx|]; [|congruence]. exists idx.
      destruct (bytes_eqb_spec a (bs "counter")); destruct (list_eq_dec Z.eq_dec a (bs "counter")); congruence || reflexivity.
    - intros v I V. rewrite (findDim_panics l [] _ v I eq_refl V). reflexivity. }
  unfold HandlerOf. destruct agg as [|c agg].
  - change (negb (bytes_eqb [] [])) with false. cbv iota. rewrite findAgg_flat. destruct (asked [] l) as [[]|]; try reflexivity. apply M.
  - destruct (bytes_eqb_spec (c :: agg) []); [discriminate|]. cbn [negb asked]. apply M.
Qed.
Print Assumptions C54_handler.
Example C54_handler_example :
  HandlerOf true [] (flat [(bs "dim", VStr (bs "k")); (bs "k", VStr []); (bs "agg", VStr (bs "counter")); (bs "agg", VStr (bs "call"))]) = (true, AggCount [2; 3]%nat) /\
  HandlerOf true [] (flat [(bs "k", VStr [])]) = (false, AggNil) /\
  HandlerOf true [] (flat [(bs "agg", VAny 1 1)]) = (false, AggPanics) /\
  HandlerOf true (bs "counter") (flat [(bs "dim", VAny 1 1)]) = (false, AggPanics) /\
  HandlerOf false (bs "counter") (flat [(bs "dim", VAny 1 1)]) = (false, AggDummy).
Proof. repeat split. Qed.
