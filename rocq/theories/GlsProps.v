(** Properties C23, C24: goroutine local storage. *)
From Verif Require Import Base GlsModel GlsSpec GlsProofs.

Section Claims.
  Variable Copy : Z -> option Z.
  Notation run := (run Copy).
  Notation value := (value Copy).
  Notation captured := (captured Copy).

  (** * C23 *)
  (** In every schedule of any number of goroutines, Get returns the value the events of the past determine: see [value]. *)
  Theorem C23_get : forall evs g k s os, run init (evs ++ [GetEnd g k]) = Some (s, os) -> started_once (rev evs) ->
    exists os', os = os' ++ [Value (value (rev evs) g k)].
  Proof.
    intros evs g k s os R ON. rewrite run_app in R. destruct (run init evs) as [[s1 o1]|] eqn:E1; [|discriminate R].
    assert (H : Inv Copy (rev evs ++ []) s1) by (eapply run_inv; eauto using inv_init; now rewrite app_nil_r).
    rewrite app_nil_r in H. cbn [GlsModel.run] in R. destruct (step Copy s1 (GetEnd g k)) as [[s2 o]|] eqn:E2; [|discriminate R]. injection R as <- <-.
    exists o1. now rewrite (step_obs Copy _ _ _ _ _ H E2).
  Qed.

  (** Set panics exactly on goroutines without storage, and nothing else ever panics. *)
  Theorem C23_panics : forall evs e s os, run init (evs ++ [e]) = Some (s, os) -> started_once (rev evs) ->
    (exists os', os = os' ++ [Panic]) <-> exists g k v, e = SetEnd g k v /\ enabled (rev evs) g = false.
  Proof.
    intros evs e s os R ON. rewrite run_app in R. destruct (run init evs) as [[s1 o1]|] eqn:E1; [|discriminate R].
    assert (H : Inv Copy (rev evs ++ []) s1) by (eapply run_inv; eauto using inv_init; now rewrite app_nil_r).
    rewrite app_nil_r in H. cbn [GlsModel.run] in R. destruct (step Copy s1 e) as [[s2 o]|] eqn:E2; [|discriminate R]. injection R as <- <-.
    pose proof (step_obs Copy _ _ _ _ _ H E2) as O. split.
    - intros [os' Q]. apply app_inj_tail in Q as [_ Q]. subst o. destruct e; try discriminate O. exists g, k, v. split; auto. destruct (enabled (rev evs) g); [discriminate O|reflexivity].
    - intros (g & k & v & -> & D). rewrite D in O. subst o. exists o1. reflexivity.
  Qed.

  (** The last value g itself set for the key, newest first. *)
  Fixpoint last_set (seg : list event) (g k : Z) : option Z :=
    match seg with
    | [] => None
    | SetEnd g' k' v :: seg => if (g' =? g) && (k' =? k) then Some v else last_set seg g k
    | _ :: seg => last_set seg g k
    end.

  Lemma enabled_seg : forall seg g c older, (forall e, In e seg -> match e with Enter g' _ | Exit g' => g' <> g | _ => True end) ->
    enabled (seg ++ Enter g c :: older) g = true.
  Proof.
    induction seg as [|e seg IH]; intros g c older H; cbn [app enabled]; [now rewrite Z.eqb_refl|].
    assert (IH' : enabled (seg ++ Enter g c :: older) g = true) by (apply IH; intros x X; apply H; right; exact X).
    specialize (H e (or_introl eq_refl)). destruct e; auto; destruct (Z.eqb_spec g0 g); congruence.
  Qed.

  (** Since its storage was installed (Enter g c) the value of a key on g is the last one g set, else the captured
      one: what the other goroutines did since (the rest of [seg]) plays no role. *)
  Theorem C23_isolated : forall seg g c older k, (forall e, In e seg -> match e with Enter g' _ | Exit g' => g' <> g | _ => True end) ->
    value (seg ++ Enter g c :: older) g k = match last_set seg g k with Some v => v | None => captured older c k end /\
    last_set seg g k = last_set (filter (fun e => by_g e =? g) seg) g k.
  Proof.
    induction seg as [|e seg IH]; intros g c older k H; cbn [app last_set filter].
    - cbn [GlsSpec.value]. rewrite Z.eqb_refl. auto.
    - assert (IH' : forall e, In e seg -> match e with Enter g' _ | Exit g' => g' <> g | _ => True end) by (intros x X; apply H; right; exact X).
      destruct (IH g c older k IH') as [A B]. pose proof (enabled_seg seg g c older IH') as EN. specialize (H e (or_introl eq_refl)).
      destruct e; cbn [GlsSpec.value last_set by_g]; try (split; [exact A|destruct (Z.eqb _ g); cbn [last_set]; exact B]).
      + destruct (Z.eqb_spec g0 g); [congruence|auto].
      + destruct (Z.eqb_spec g0 g); [congruence|auto].
      + rewrite EN, andb_true_r. split; [destruct ((g0 =? g) && (k0 =? k)); auto|]. destruct (g0 =? g) eqn:G; cbn [andb last_set]; [rewrite G; cbn [andb]; destruct (k0 =? k); auto|exact B].
  Qed.

  (** What is captured is fixed when the function is wrapped: a copy of the wrapping goroutine's values at that time. *)
  Theorem C23_captured : forall later g c older k, (forall e, In e later -> match e with WithEnd _ c' | WithEmpty _ c' => c' <> c | _ => True end) ->
    captured (later ++ WithEnd g c :: older) c k = inherit Copy (value older g k).
  Proof.
    induction later as [|e later IH]; intros g c older k H; cbn [app GlsSpec.captured]; [now rewrite Nat.eqb_refl|].
    assert (IH' : captured (later ++ WithEnd g c :: older) c k = inherit Copy (value older g k)) by (apply IH; intros x X; apply H; right; exact X).
    specialize (H e (or_introl eq_refl)). destruct e; auto; destruct (Nat.eqb_spec c0 c); congruence.
  Qed.

  (** * C24 *)
  Lemma run_enabled : forall evs past s s' os,
    (forall g, if enabled past g then exists a, cur (globalMaps s) g = Some (Some a) else cur (globalMaps s) g = None) ->
    run s evs = Some (s', os) ->
    forall g, if enabled (rev evs ++ past) g then exists a, cur (globalMaps s') g = Some (Some a) else cur (globalMaps s') g = None.
  Proof.
    induction evs as [|e evs IH]; intros past s s' os H E; cbn [GlsModel.run] in E.
    - injection E as <- _. exact H.
    - destruct (step Copy s e) as [[s1 o]|] eqn:E1; [|discriminate E]. destruct (run s1 evs) as [[s2 os']|] eqn:E2; [|discriminate E]. injection E as <- _.
      cbn [rev]. rewrite <- app_assoc. cbn [app]. eapply IH; [|exact E2]. intros g. specialize (H g). destruct e; cbn [GlsModel.step] in E1; cbn [enabled].
      + destruct (pcs s g0); try discriminate E1. injection E1 as <- _. exact H.
      + destruct (pcs s g0); try discriminate E1. destruct (c =? _)%nat; [|discriminate E1]. injection E1 as <- _. exact H.
      + destruct (pcs s g0); try discriminate E1. destruct (c =? _)%nat; [|discriminate E1]. injection E1 as <- _. exact H.
      + destruct (pcs s g0); try discriminate E1. destruct (nth_error _ c) as [[a|]|]; [| |discriminate E1]; injection E1 as <- _; cbn [globalMaps];
          rewrite cur_reset, (Z.eqb_sym g0 g); destruct (g =? g0); eauto.
      + destruct (pcs s g0); try discriminate E1. injection E1 as <- _. cbn [globalMaps]. rewrite cur_delete, (Z.eqb_sym g0 g). destruct (g =? g0); auto.
      + destruct (pcs s g0); try discriminate E1. injection E1 as <- _. exact H.
      + destruct (pcs s g0); try discriminate E1. destruct (_ =? k); [|discriminate E1]. injection E1 as <- _. exact H.
      + destruct (pcs s g0); try discriminate E1. injection E1 as <- _. exact H.
      + destruct (pcs s g0) as [|? ?|m ? ?|?]; try discriminate E1. destruct (_ && _); [|discriminate E1]. destruct m; injection E1 as <- _; exact H.
  Qed.

  (** Full claim: storage is enabled exactly while a wrapped function runs.  It is false of the code. *)
  Definition C24_full : Prop := forall evs s os, run init evs = Some (s, os) -> (forall g, 0 <= depth (rev evs) g) ->
    forall g, IsGlsEnabled g (globalMaps s) = (0 <? depth (rev evs) g).

  (** Exactly: it is enabled iff the last thing that happened on g was a start and not an end of a wrapped function. *)
  Theorem C24_enabled_exact : forall evs s os, run init evs = Some (s, os) -> forall g, IsGlsEnabled g (globalMaps s) = enabled (rev evs) g.
  Proof.
    intros evs s os R g. assert (H := run_enabled evs [] init s os (fun g => eq_refl) R g). rewrite app_nil_r in H.
    unfold IsGlsEnabled. rewrite GetGls_cur. destruct (enabled (rev evs) g); [destruct H as (a & ->)|rewrite H]; reflexivity.
  Qed.

  Lemma unnested_depth : forall past g, unnested past -> (enabled past g = true /\ depth past g = 1) \/ (enabled past g = false /\ depth past g = 0).
  Proof.
    induction past as [|e past IH]; intros g H; [right; auto|]. destruct e; cbn [unnested enabled depth] in *; try (now apply IH).
    - destruct H as [H1 H2]. destruct (Z.eqb_spec g0 g) as [->|]; [left; split; [auto|lia]|now apply IH].
    - destruct H as [H1 H2]. destruct (Z.eqb_spec g0 g) as [->|]; [right; split; [auto|lia]|now apply IH].
  Qed.

  (** If wrapped functions are only started on goroutines that run none, the claim holds. *)
  Theorem C24_unnested_partial : forall evs s os, run init evs = Some (s, os) -> unnested (rev evs) ->
    forall g, IsGlsEnabled g (globalMaps s) = (0 <? depth (rev evs) g).
  Proof.
    intros evs s os R U g. rewrite (C24_enabled_exact evs s os R). destruct (unnested_depth (rev evs) g U) as [[-> ->]|[-> ->]]; reflexivity.
  Qed.

  (** Nothing leaks: when no wrapped function is running the maps of all shards are empty. *)
  Theorem C24_no_leak : forall evs s os, run init evs = Some (s, os) -> unnested (rev evs) -> (forall g, depth (rev evs) g = 0) ->
    forall shard g, globalMaps s shard g = None.
  Proof.
    intros evs s os R U D shard g. destruct (Z.eq_dec shard (g mod shardsCount)) as [->|N].
    - assert (H := run_enabled evs [] init s os (fun g => eq_refl) R g). rewrite app_nil_r in H.
      destruct (unnested_depth (rev evs) g U) as [[_ E]|[E _]]; [rewrite D in E; discriminate E|]. rewrite E in H. exact H.
    - assert (X : forall evs s s' os, (forall sh g, sh <> g mod shardsCount -> globalMaps s sh g = None) -> run s evs = Some (s', os) ->
        forall sh g, sh <> g mod shardsCount -> globalMaps s' sh g = None).
      { clear. induction evs as [|e evs IH]; intros s s' os H E; cbn [GlsModel.run] in E.
        - injection E as <- _. exact H.
        - destruct (step Copy s e) as [[s1 o]|] eqn:E1; [|discriminate E]. destruct (run s1 evs) as [[s2 os']|] eqn:E2; [|discriminate E]. injection E as <- _.
          eapply IH; [|exact E2]. intros sh g N.
          assert (G : globalMaps s1 = globalMaps s \/ (exists g' m, globalMaps s1 = ResetGls g' m (globalMaps s)) \/ exists g', globalMaps s1 = DeleteGls g' (globalMaps s)).
          { destruct e; cbn [GlsModel.step] in E1; destruct (pcs s g0); try discriminate E1;
              repeat match type of E1 with
              | context [nth_error ?l ?c] => destruct (nth_error l c) as [[?|]|]
              | context [if ?b then _ else _] => destruct b
              | context [match ?m with Some _ => _ | None => _ end] => destruct m
              end; try discriminate E1; injection E1 as <- _; cbn [globalMaps set_pc]; eauto. }
          destruct G as [->|[(g' & m & ->)|(g' & ->)]]; [now apply H| |]; unfold ResetGls, DeleteGls, upd.
          + destruct (Z.eqb_spec sh (g' mod shardsCount)) as [->|]; [|now apply H]. destruct (Z.eqb_spec g g') as [->|]; [congruence|now apply H].
          + destruct (Z.eqb_spec sh (g' mod shardsCount)) as [->|]; [|now apply H]. destruct (Z.eqb_spec g g') as [->|]; [congruence|now apply H]. }
      eapply X; [|exact R|exact N]. reflexivity.
  Qed.

  (** A wrapped function run inside another one takes the storage of the outer one away; Set then panics. *)
  Theorem C24_nested_refuted : exists s,
    let evs := [WithEmpty 1 0; Enter 1 0; WithEmpty 1 1; Enter 1 1; Exit 1; SetStart 1 7 8; SetEnd 1 7 8] in
    run init evs = Some (s, [Silent; Silent; Silent; Silent; Silent; Silent; Panic]) /\ depth (rev evs) 1 = 1.
  Proof. eexists. split; reflexivity. Qed.

  (** A function wrapped by WithGls and started on two goroutines: one sees what the other sets. *)
  Theorem C24_shared_refuted : exists s,
    run init [WithStart 1; WithEnd 1 0; Enter 2 0; Enter 3 0; SetStart 2 7 8; SetEnd 2 7 8; GetStart 3 7; GetEnd 3 7]
    = Some (s, [Silent; Silent; Silent; Silent; Silent; Silent; Silent; Value 8]).
  Proof. eexists. reflexivity. Qed.

  (** Also one after the other: the second run starts with what the first left. *)
  Theorem C24_reused_refuted : exists s,
    run init [WithStart 1; WithEnd 1 0; Enter 2 0; SetStart 2 7 8; SetEnd 2 7 8; Exit 2; Enter 2 0; GetStart 2 7; GetEnd 2 7]
    = Some (s, [Silent; Silent; Silent; Silent; Silent; Silent; Silent; Silent; Value 8]).
  Proof. eexists. reflexivity. Qed.

  Theorem C24_full_refuted : ~ C24_full.
  Proof.
    intros F. destruct C24_nested_refuted as (s & R & D). specialize (F _ _ _ R).
    assert (N : forall g, 0 <= depth (rev [WithEmpty 1 0; Enter 1 0; WithEmpty 1 1; Enter 1 1; Exit 1; SetStart 1 7 8; SetEnd 1 7 8]) g).
    { intros g. cbn [rev app depth]. destruct (1 =? g); lia. }
    specialize (F N 1). rewrite (C24_enabled_exact _ _ _ R) in F. discriminate F.
  Qed.
End Claims.
Print Assumptions C23_get.
Print Assumptions C23_panics.
Print Assumptions C23_isolated.
Print Assumptions C23_captured.
Print Assumptions C24_enabled_exact.
Print Assumptions C24_unnested_partial.
Print Assumptions C24_no_leak.
Print Assumptions C24_nested_refuted.
Print Assumptions C24_shared_refuted.
Print Assumptions C24_reused_refuted.
Print Assumptions C24_full_refuted.

(** Goroutines 1 and 17 share a shard; 17 inherits a copy (values above 100 are copiable: the copy is 1 more), both
    interleave Set and Get. *)
Definition ex_copy (v : Z) : option Z := if 100 <? v then Some (v + 1) else None.
Definition ex_events : list event :=
  [WithEmpty 1 0; Enter 1 0; SetStart 1 5 200; SetEnd 1 5 200; SetStart 1 6 3; SetEnd 1 6 3; WithStart 1; WithEnd 1 1;
   SetStart 1 6 4; Enter 17 1; SetEnd 1 6 4; GetStart 17 6; GetEnd 17 6; SetStart 17 5 9; GetStart 1 5; SetEnd 17 5 9; GetEnd 1 5; GetStart 17 5].
Example C23_example : exists s os,
  run ex_copy init (ex_events ++ [GetEnd 17 5]) = Some (s, os) /\ started_once (rev ex_events) /\
  value ex_copy (rev ex_events) 17 5 = 9 /\ value ex_copy (rev ex_events) 17 6 = 3 /\ value ex_copy (rev ex_events) 1 5 = 200 /\ value ex_copy (rev ex_events) 1 6 = 4 /\
  nth 12 os Silent = Value 3 /\ nth 16 os Silent = Value 200 /\ nth 18 os Silent = Value 9.
Proof.
  eexists. eexists. split; [vm_compute; reflexivity|]. split; [|vm_compute; tauto].
  intros c [g H]. cbn in H. repeat destruct H as [H|H]; try discriminate H; [|contradiction]. injection H as _ <-. vm_compute. lia.
Qed.
Example C23_isolated_example :
  let seg := [SetEnd 1 5 3; SetEnd 17 5 9; GetEnd 1 5] in
  (forall e, In e seg -> match e with Enter g' _ | Exit g' => g' <> 17 | _ => True end) /\ last_set seg 17 5 = Some 9 /\ last_set seg 17 6 = None.
Proof. split; [intros e [<-|[<-|[<-|[]]]]; exact I|split; reflexivity]. Qed.
Example C24_example : exists s os, let evs := ex_events ++ [GetEnd 17 5; Exit 17; Exit 1] in
  run ex_copy init evs = Some (s, os) /\ unnested (rev evs) /\ forall g, depth (rev evs) g = 0.
Proof.
  eexists. eexists. split; [vm_compute; reflexivity|]. split; [vm_compute; tauto|]. intros g. cbn [ex_events app rev depth].
  destruct (1 =? g) eqn:A, (17 =? g) eqn:B; lia.
Qed.
