(** Proofs about goroutine local storage. *)
From Verif Require Import Base GlsModel GlsSpec.

Section Proofs.
  Variable Copy : Z -> option Z.
  Notation step := (step Copy).
  Notation run := (run Copy).
  Notation value := (value Copy).
  Notation captured := (captured Copy).

  Definition look (h : list table) (a : nat) (k : Z) : Z := match nth a h (fun _ => None) k with Some v => v | None => 0 end.
  Definition cur (gm : Z -> Z -> option (option nat)) (g : Z) : option (option nat) := gm (g mod shardsCount) g.

  Lemma cur_reset : forall g m gm g', cur (ResetGls g m gm) g' = if g' =? g then Some m else cur gm g'.
  Proof.
    intros g m gm g'. unfold cur, ResetGls, upd. destruct (g' =? g) eqn:E.
    - apply Z.eqb_eq in E as ->. now rewrite !Z.eqb_refl.
    - destruct (g' mod shardsCount =? g mod shardsCount) eqn:F; [|reflexivity]. apply Z.eqb_eq in F. rewrite E, F. reflexivity.
  Qed.
  Lemma cur_delete : forall g gm g', cur (DeleteGls g gm) g' = if g' =? g then None else cur gm g'.
  Proof.
    intros g gm g'. unfold cur, DeleteGls, upd. destruct (g' =? g) eqn:E.
    - apply Z.eqb_eq in E as ->. now rewrite !Z.eqb_refl.
    - destruct (g' mod shardsCount =? g mod shardsCount) eqn:F; [|reflexivity]. apply Z.eqb_eq in F. rewrite E, F. reflexivity.
  Qed.
  Lemma GetGls_cur : forall g gm, GetGls g gm = match cur gm g with Some m => m | None => None end.
  Proof. reflexivity. Qed.

  Lemma write_length : forall h a k v, List.length (write h a k v) = List.length h.
  Proof. induction h as [|t h IH]; intros [|a] k v; cbn; auto. Qed.
  Lemma look_write : forall h a k v a' k', (a < List.length h)%nat ->
    look (write h a k v) a' k' = if (a' =? a)%nat && (k' =? k) then v else look h a' k'.
  Proof.
    induction h as [|t h IH]; intros a k v a' k' L; [cbn in L; lia|]. destruct a as [|a], a' as [|a']; cbn [write]; unfold look; cbn [nth Nat.eqb andb]; try reflexivity.
    - unfold upd. destruct (k' =? k); reflexivity.
    - apply IH. cbn in L. lia.
  Qed.
  Lemma look_app : forall h t a k, (a < List.length h)%nat -> look (h ++ [t]) a k = look h a k.
  Proof. intros h t a k L. unfold look. now rewrite app_nth1. Qed.
  Lemma look_new : forall h t k, look (h ++ [t]) (List.length h) k = match t k with Some v => v | None => 0 end.
  Proof. intros h t k. unfold look. now rewrite nth_middle. Qed.

  Record Inv (past : list event) (s : state) : Prop := {
    I_on : forall g, enabled past g = true -> exists a, cur (globalMaps s) g = Some (Some a) /\ (a < List.length (heap s))%nat /\
             forall k, look (heap s) a k = value past g k;
    I_off : forall g, enabled past g = false -> cur (globalMaps s) g = None;
    I_clo : forall c a, nth_error (closures s) c = Some (Some a) -> (a < List.length (heap s))%nat /\ inherits past c /\
              (starts past c = 0%nat -> (forall k, look (heap s) a k = captured past c k) /\ forall g, cur (globalMaps s) g <> Some (Some a));
    I_inj : forall c c' a, nth_error (closures s) c = Some (Some a) -> nth_error (closures s) c' = Some (Some a) -> c = c';
    I_sep : forall g g' a, cur (globalMaps s) g = Some (Some a) -> cur (globalMaps s) g' = Some (Some a) -> g = g';
    I_empty : forall c, nth_error (closures s) c = Some None -> forall k, captured past c k = 0;
    I_pc : forall g, match pcs s g with
             | Idle => True
             | InGet m _ | InSet m _ _ | InWith m => m = match cur (globalMaps s) g with Some m => m | None => None end
             end;
    I_new : forall c, (List.length (closures s) <= c)%nat -> starts past c = 0%nat
  }.

  Lemma value_off : forall past g k, enabled past g = false -> value past g k = 0.
  Proof.
    induction past as [|e past IH]; intros g k H; [reflexivity|]. cbn [GlsSpec.value]. destruct e; cbn [enabled] in H; try (now apply IH).
    - destruct (g0 =? g); [discriminate H|now apply IH].
    - destruct (g0 =? g); [reflexivity|now apply IH].
    - rewrite H, andb_false_r. now apply IH.
  Qed.

  Lemma inv_init : Inv [] init.
  Proof.
    assert (N : forall (c : nat) (x : option nat), nth_error [] c = Some x -> False) by (intros [|c] x Q; discriminate Q).
    split; cbn [init heap globalMaps closures pcs]; try (intros g Q; discriminate Q); auto.
    - intros c a Q. now apply N in Q.
    - intros c c' a Q. now apply N in Q.
    - intros g g' a Q. discriminate Q.
  Qed.

  Lemma inherits_cons : forall e past c, inherits past c -> inherits (e :: past) c.
  Proof. intros e past c (g & H). exists g. right. exact H. Qed.
  Lemma starts_cons : forall e past c, starts (e :: past) c = ((match e with Enter _ c' => if (c' =? c)%nat then 1 else 0 | _ => 0 end) + starts past c)%nat.
  Proof. intros e past c. unfold starts. cbn [filter]. destruct e; auto. destruct (c0 =? c)%nat; reflexivity. Qed.
  Lemma once_cons : forall e past, started_once (e :: past) -> started_once past.
  Proof. intros e past H c I. specialize (H c (inherits_cons e past c I)). rewrite starts_cons in H. lia. Qed.

  Lemma upd_pc : forall (s : state) g p g', upd (pcs s) g p g' = if g' =? g then p else pcs s g'.
  Proof. reflexivity. Qed.

  (** Steps that only move the program counter. *)
  Lemma inv_pc : forall past s e g p, Inv past s ->
    (forall past g, enabled (e :: past) g = enabled past g) -> (forall past g k, value (e :: past) g k = value past g k) ->
    (forall past c k, captured (e :: past) c k = captured past c k) -> (forall past c, starts (e :: past) c = starts past c) ->
    match p with
    | Idle => True
    | InGet m _ | InSet m _ _ | InWith m => m = match cur (globalMaps s) g with Some m => m | None => None end
    end -> Inv (e :: past) (set_pc s g p).
  Proof.
    intros past s e g p H E V C S P. destruct H. split; cbn [set_pc heap globalMaps closures pcs].
    - intros g'. rewrite E. intros Q. destruct (I_on0 g' Q) as (a & A & B & D). exists a. split; [auto|]. split; [auto|]. intros k. now rewrite V.
    - intros g'. rewrite E. auto.
    - intros c a Q. destruct (I_clo0 c a Q) as (A & B & D). split; [auto|]. split; [now apply inherits_cons|]. rewrite S. intros Z. destruct (D Z) as [D1 D2].
      split; auto. intros k. now rewrite C.
    - auto.
    - auto.
    - intros c Q k. now rewrite C, I_empty0.
    - intros g'. unfold upd. destruct (g' =? g) eqn:G; [|apply I_pc0]. apply Z.eqb_eq in G as ->. exact P.
    - intros c L. rewrite S. now apply I_new0.
  Qed.

  Lemma cur_get : forall past s g, Inv past s -> forall k,
    match (match cur (globalMaps s) g with Some m => m | None => None end) with Some a => look (heap s) a k | None => 0 end = value past g k.
  Proof.
    intros past s g H k. destruct (enabled past g) eqn:E.
    - destruct (I_on _ _ H g E) as (a & -> & _ & V). apply V.
    - rewrite (I_off _ _ H g E). now rewrite value_off.
  Qed.

  Lemma step_inv : forall past s e s' o, Inv past s -> started_once (e :: past) -> step s e = Some (s', o) -> Inv (e :: past) s'.
  Proof.
    intros past s e s' o H ON E. destruct e as [g|g c|g c|g c|g|g k|g k|g k v|g k v]; cbn [GlsModel.step] in E.
    - destruct (pcs s g); try discriminate E. injection E as <- <-. apply inv_pc; auto.
    - destruct (pcs s g) as [|? ?|? ? ?|m] eqn:P; try discriminate E. destruct (Nat.eqb_spec c (List.length (closures s))) as [->|]; [|discriminate E]. injection E as <- <-.
      pose proof (I_pc _ _ H g) as PC. rewrite P in PC.
      assert (ENA : forall g', enabled (WithEnd g (List.length (closures s)) :: past) g' = enabled past g') by reflexivity.
      assert (ST : forall c, starts (WithEnd g (List.length (closures s)) :: past) c = starts past c) by reflexivity.
      assert (CAP : forall c k, captured (WithEnd g (List.length (closures s)) :: past) c k =
        if (List.length (closures s) =? c)%nat then inherit Copy (value past g k) else captured past c k) by reflexivity.
      pose proof (cur_get past s g H) as CG. destruct H. split; cbn [heap globalMaps closures pcs].
      + intros g' Q. rewrite ENA in Q. destruct (I_on0 g' Q) as (a & A & B & D). exists a. split; auto. rewrite app_length. split; [cbn; lia|]. intros k. rewrite look_app by auto. apply D.
      + intros g' Q. rewrite ENA in Q. auto.
      + intros c a Q. destruct (lt_dec c (List.length (closures s))) as [L|L].
        * rewrite nth_error_app1 in Q by auto. destruct (I_clo0 c a Q) as (A & B & D). rewrite app_length. split; [cbn; lia|]. split; [now apply inherits_cons|].
          rewrite ST. intros Z. destruct (D Z) as [D1 D2]. split; auto. intros k. rewrite look_app, CAP by auto. destruct (Nat.eqb_spec (List.length (closures s)) c); [lia|auto].
        * assert (c = List.length (closures s)).
          { assert (nth_error (closures s ++ [Some (List.length (heap s))]) c <> None) by congruence. apply nth_error_Some in H. rewrite app_length in H. cbn in H. lia. }
          subst c. rewrite nth_error_app2, Nat.sub_diag in Q by lia. injection Q as <-. rewrite app_length. split; [cbn; lia|]. split; [exists g; left; reflexivity|].
          intros _. split.
          { intros k. rewrite look_new, CAP, Nat.eqb_refl. unfold copyTable. rewrite <- CG, <- PC. destruct m as [a|]; [|reflexivity].
            unfold inherit, look, copyOf, nil_value. destruct (nth a (heap s) (fun _ => None) k) as [v|]; [|reflexivity]. destruct (v =? 0) eqn:Z0; [lia|reflexivity]. }
          { intros g' Q. destruct (enabled past g') eqn:E'.
            - destruct (I_on0 g' E') as (a & A & B & _). rewrite A in Q. injection Q as ->. lia.
            - rewrite (I_off0 g' E') in Q. discriminate Q. }
      + intros c c' a Q Q'.
        assert (X : forall c, nth_error (closures s ++ [Some (List.length (heap s))]) c = Some (Some a) ->
          (nth_error (closures s) c = Some (Some a) /\ (a < List.length (heap s))%nat) \/ (c = List.length (closures s) /\ a = List.length (heap s))).
        { clear Q Q' c c'. intros c Q. destruct (lt_dec c (List.length (closures s))) as [L|L].
          - rewrite nth_error_app1 in Q by auto. left. split; auto. apply (I_clo0 c a Q).
          - right. destruct (Nat.eq_dec c (List.length (closures s))) as [->|N].
            + rewrite nth_error_app2, Nat.sub_diag in Q by lia. injection Q as <-. auto.
            + assert (nth_error (closures s ++ [Some (List.length (heap s))]) c = None) by (apply nth_error_None; rewrite app_length; cbn; lia). congruence. }
        destruct (X c Q) as [[A B]|[A B]], (X c' Q') as [[A' B']|[A' B']]; try lia. eapply I_inj0; eauto.
      + auto.
      + intros c Q k. rewrite CAP. destruct (lt_dec c (List.length (closures s))) as [L|L].
        * rewrite nth_error_app1 in Q by auto. destruct (Nat.eqb_spec (List.length (closures s)) c); [lia|auto].
        * exfalso. destruct (Nat.eq_dec c (List.length (closures s))) as [->|N].
          { rewrite nth_error_app2, Nat.sub_diag in Q by lia. discriminate Q. }
          { assert (nth_error (closures s ++ [Some (List.length (heap s))]) c = None) by (apply nth_error_None; rewrite app_length; cbn; lia). congruence. }
      + intros g'. unfold upd. destruct (g' =? g); [exact I|apply I_pc0].
      + intros c L. rewrite app_length in L. rewrite ST. apply I_new0. lia.
    - destruct (pcs s g) as [|? ?|? ? ?|m] eqn:P; try discriminate E. destruct (Nat.eqb_spec c (List.length (closures s))) as [->|]; [|discriminate E]. injection E as <- <-.
      assert (ENA : forall g', enabled (WithEmpty g (List.length (closures s)) :: past) g' = enabled past g') by reflexivity.
      assert (ST : forall c, starts (WithEmpty g (List.length (closures s)) :: past) c = starts past c) by reflexivity.
      assert (CAP : forall c k, captured (WithEmpty g (List.length (closures s)) :: past) c k =
        if (List.length (closures s) =? c)%nat then 0 else captured past c k) by reflexivity.
      assert (X : forall c x, nth_error (closures s ++ [None]) c = Some x -> nth_error (closures s) c = Some x /\ (c < List.length (closures s))%nat \/ x = None /\ c = List.length (closures s)).
      { intros c x Q. destruct (lt_dec c (List.length (closures s))) as [L|L].
        - rewrite nth_error_app1 in Q by auto. auto.
        - right. destruct (Nat.eq_dec c (List.length (closures s))) as [->|N].
          + rewrite nth_error_app2, Nat.sub_diag in Q by lia. injection Q as <-. auto.
          + assert (nth_error (closures s ++ [None]) c = None) by (apply nth_error_None; rewrite app_length; cbn; lia). congruence. }
      destruct H. split; cbn [heap globalMaps closures pcs].
      + exact I_on0.
      + exact I_off0.
      + intros c a Q. destruct (X c _ Q) as [[Q' L]|[Q' _]]; [|discriminate Q']. destruct (I_clo0 c a Q') as (A & B & D). split; auto. split; [now apply inherits_cons|].
        rewrite ST. intros Z. destruct (D Z) as [D1 D2]. split; auto. intros k. rewrite CAP. destruct (Nat.eqb_spec (List.length (closures s)) c); [lia|auto].
      + intros c c' a Q Q'. destruct (X c _ Q) as [[A _]|[A _]]; [|discriminate A]. destruct (X c' _ Q') as [[A' _]|[A' _]]; [|discriminate A']. eapply I_inj0; eauto.
      + auto.
      + intros c Q k. rewrite CAP. destruct (Nat.eqb_spec (List.length (closures s)) c); [reflexivity|]. destruct (X c _ Q) as [[A _]|[_ A]]; [auto|congruence].
      + exact I_pc0.
      + intros c L. rewrite app_length in L. rewrite ST. apply I_new0. lia.
    - destruct (pcs s g) eqn:P; try discriminate E. destruct (nth_error (closures s) c) as [[a|]|] eqn:C; [| |discriminate E]; injection E as <- <-.
      + (* an inheriting function *)
        destruct (I_clo _ _ H c a C) as (A & B & D).
        assert (ST0 : starts past c = 0%nat).
        { specialize (ON c (inherits_cons _ past c B)). rewrite starts_cons, Nat.eqb_refl in ON. lia. }
        destruct (D ST0) as [D1 D2]. destruct H. split; cbn [heap globalMaps closures pcs].
        * intros g' Q. cbn [enabled] in Q. rewrite cur_reset. rewrite (Z.eqb_sym g g') in Q. destruct (g' =? g) eqn:G.
          { exists a. split; auto. split; auto. intros k. cbn [GlsSpec.value]. rewrite (Z.eqb_sym g g'), G. apply D1. }
          { destruct (I_on0 g' Q) as (a' & A' & B' & D'). exists a'. split; auto. split; auto. intros k. cbn [GlsSpec.value]. rewrite (Z.eqb_sym g g'), G. apply D'. }
        * intros g' Q. cbn [enabled] in Q. rewrite cur_reset. rewrite (Z.eqb_sym g g') in Q. destruct (g' =? g) eqn:G; [discriminate Q|auto].
        * intros c' a' Q. destruct (I_clo0 c' a' Q) as (A' & B' & D'). split; auto. split; [now apply inherits_cons|]. rewrite starts_cons. intros Z.
          destruct (Nat.eqb_spec c c') as [|N]; [lia|]. destruct (D' Z) as [D1' D2']. split; [exact D1'|]. intros g'. rewrite cur_reset. destruct (g' =? g); [|auto].
          intros X. injection X as ->. apply N. eapply I_inj0; eauto.
        * auto.
        * intros g1 g2 a'. rewrite !cur_reset. destruct (g1 =? g) eqn:G1, (g2 =? g) eqn:G2; intros Q1 Q2.
          { lia. } { injection Q1 as ->. now apply D2 in Q2. } { injection Q2 as ->. now apply D2 in Q1. } { eauto. }
        * exact I_empty0.
        * intros g'. specialize (I_pc0 g'). rewrite cur_reset. destruct (g' =? g) eqn:G; [|auto]. apply Z.eqb_eq in G as ->. now rewrite P.
        * intros c' L. rewrite starts_cons. destruct (Nat.eqb_spec c c') as [->|]; [|cbn; auto]. assert (nth_error (closures s) c' <> None) by congruence. apply nth_error_Some in H. lia.
      + (* an empty storage *)
        pose proof (I_empty _ _ H c C) as CE. destruct H. split; cbn [heap globalMaps closures pcs].
        * intros g' Q. cbn [enabled] in Q. rewrite cur_reset. rewrite (Z.eqb_sym g g') in Q. destruct (g' =? g) eqn:G.
          { exists (List.length (heap s)). split; auto. rewrite app_length. split; [cbn; lia|]. intros k. cbn [GlsSpec.value]. rewrite (Z.eqb_sym g g'), G, look_new. now rewrite CE. }
          { destruct (I_on0 g' Q) as (a' & A' & B' & D'). exists a'. split; auto. rewrite app_length. split; [cbn; lia|]. intros k. cbn [GlsSpec.value]. rewrite (Z.eqb_sym g g'), G, look_app by auto. apply D'. }
        * intros g' Q. cbn [enabled] in Q. rewrite cur_reset. rewrite (Z.eqb_sym g g') in Q. destruct (g' =? g) eqn:G; [discriminate Q|auto].
        * intros c' a' Q. destruct (I_clo0 c' a' Q) as (A' & B' & D'). rewrite app_length. split; [cbn; lia|]. split; [now apply inherits_cons|]. rewrite starts_cons. intros Z.
          destruct (Nat.eqb_spec c c') as [|N]; [lia|]. destruct (D' Z) as [D1' D2']. split; [intros k; rewrite look_app by auto; apply D1'|]. intros g'. rewrite cur_reset. destruct (g' =? g); [|auto].
          intros X. injection X as X. lia.
        * auto.
        * assert (F : forall g', cur (globalMaps s) g' <> Some (Some (List.length (heap s)))).
          { intros g' Q. destruct (enabled past g') eqn:E'.
            - destruct (I_on0 g' E') as (a & A & B & _). rewrite A in Q. injection Q as ->. lia.
            - rewrite (I_off0 g' E') in Q. discriminate Q. }
          intros g1 g2 a'. rewrite !cur_reset. destruct (g1 =? g) eqn:G1, (g2 =? g) eqn:G2; intros Q1 Q2.
          { lia. } { injection Q1 as <-. now apply F in Q2. } { injection Q2 as <-. now apply F in Q1. } { eauto. }
        * exact I_empty0.
        * intros g'. specialize (I_pc0 g'). rewrite cur_reset. destruct (g' =? g) eqn:G; [|auto]. apply Z.eqb_eq in G as ->. now rewrite P.
        * intros c' L. rewrite starts_cons. destruct (Nat.eqb_spec c c') as [->|]; [|cbn; auto]. assert (nth_error (closures s) c' <> None) by congruence. apply nth_error_Some in H. lia.
    - destruct (pcs s g) eqn:P; try discriminate E. injection E as <- <-. destruct H. split; cbn [heap globalMaps closures pcs].
      + intros g' Q. cbn [enabled] in Q. rewrite cur_delete. rewrite (Z.eqb_sym g g') in Q. destruct (g' =? g) eqn:G; [discriminate Q|].
        destruct (I_on0 g' Q) as (a' & A' & B' & D'). exists a'. split; auto. split; auto. intros k. cbn [GlsSpec.value]. rewrite (Z.eqb_sym g g'), G. apply D'.
      + intros g' Q. cbn [enabled] in Q. rewrite cur_delete. rewrite (Z.eqb_sym g g') in Q. destruct (g' =? g) eqn:G; auto.
      + intros c' a' Q. destruct (I_clo0 c' a' Q) as (A' & B' & D'). split; auto. split; [now apply inherits_cons|]. intros Z. change (starts past c' = 0%nat) in Z.
        destruct (D' Z) as [D1' D2']. split; [exact D1'|]. intros g'. rewrite cur_delete. destruct (g' =? g); [discriminate|auto].
      + auto.
      + intros g1 g2 a'. rewrite !cur_delete. destruct (g1 =? g), (g2 =? g); try discriminate. eauto.
      + exact I_empty0.
      + intros g'. specialize (I_pc0 g'). rewrite cur_delete. destruct (g' =? g) eqn:G; [|auto]. apply Z.eqb_eq in G as ->. now rewrite P.
      + exact I_new0.
    - destruct (pcs s g); try discriminate E. injection E as <- <-. apply inv_pc; auto.
    - destruct (pcs s g); try discriminate E. destruct (k0 =? k); [|discriminate E]. injection E as <- <-. apply inv_pc; auto.
    - destruct (pcs s g); try discriminate E. injection E as <- <-. apply inv_pc; auto.
    - destruct (pcs s g) as [|? ?|m k0 v0|?] eqn:P; try discriminate E. destruct (Z.eqb_spec k0 k) as [->|]; [|discriminate E]. destruct (Z.eqb_spec v0 v) as [->|]; [|discriminate E].
      cbn [andb] in E. pose proof (I_pc _ _ H g) as PC. rewrite P in PC. destruct m as [a|]; injection E as <- <-.
      + assert (CG : cur (globalMaps s) g = Some (Some a)) by (destruct (cur (globalMaps s) g); congruence).
        assert (EN : enabled past g = true).
        { destruct (enabled past g) eqn:Q; auto. rewrite (I_off _ _ H g Q) in CG. discriminate CG. }
        assert (AL : (a < List.length (heap s))%nat).
        { destruct (I_on _ _ H g EN) as (a' & A & B & _). congruence. }
        destruct H. split; cbn [heap globalMaps closures pcs].
        * intros g' Q. cbn [enabled] in Q. destruct (I_on0 g' Q) as (a' & A' & B' & D'). exists a'. split; auto. rewrite write_length. split; auto. intros k'.
          rewrite look_write by auto. cbn [GlsSpec.value]. destruct (Z.eqb_spec g g') as [<-|N].
          { assert (a' = a) by congruence. subst a'. rewrite Nat.eqb_refl, EN. cbn [andb]. rewrite (Z.eqb_sym k k'). destruct (k' =? k); cbn [andb]; auto. }
          { cbn [andb]. destruct (Nat.eqb_spec a' a) as [->|]; [|apply D']. exfalso. apply N. eapply I_sep0; eauto. }
        * exact I_off0.
        * intros c' a' Q. destruct (I_clo0 c' a' Q) as (A' & B' & D'). rewrite write_length. split; auto. split; [now apply inherits_cons|]. intros Z. change (starts past c' = 0%nat) in Z.
          destruct (D' Z) as [D1' D2']. split; [|exact D2']. intros k'. rewrite look_write by auto. destruct (Nat.eqb_spec a' a) as [->|]; [|apply D1']. now apply D2' in CG.
        * auto.
        * auto.
        * exact I_empty0.
        * intros g'. unfold upd. destruct (g' =? g); [exact I|apply I_pc0].
        * exact I_new0.
      + assert (CG : cur (globalMaps s) g = None \/ cur (globalMaps s) g = Some None) by (destruct (cur (globalMaps s) g) as [m|]; [right; congruence|auto]).
        assert (EN : enabled past g = false).
        { destruct (enabled past g) eqn:Q; auto. destruct (I_on _ _ H g Q) as (a' & A & _). destruct CG; congruence. }
        assert (V : forall past' g' k', (past' = past) -> value (SetEnd g k v :: past') g' k' = value past' g' k').
        { intros past' g' k' ->. cbn [GlsSpec.value]. destruct (Z.eqb_spec g g') as [<-|]; [rewrite EN, andb_false_r|]; reflexivity. }
        destruct H. split; cbn [set_pc heap globalMaps closures pcs]; auto.
        * intros g' Q. cbn [enabled] in Q. destruct (I_on0 g' Q) as (a' & A' & B' & D'). exists a'. split; auto. split; auto. intros k'. rewrite V; auto.
        * intros c' a' Q. destruct (I_clo0 c' a' Q) as (A' & B' & D'). split; auto. split; [now apply inherits_cons|]. exact D'.
        * intros g'. unfold upd. destruct (g' =? g); [exact I|apply I_pc0].
  Qed.

  (** What a step shows, in a state that satisfies the invariant. *)
  Lemma step_obs : forall past s e s' o, Inv past s -> step s e = Some (s', o) ->
    match e with
    | GetEnd g k => o = Value (value past g k)
    | SetEnd g _ _ => o = if enabled past g then Silent else Panic
    | _ => o = Silent
    end.
  Proof.
    intros past s e s' o H E. destruct e as [g|g c|g c|g c|g|g k|g k|g k v|g k v]; cbn [GlsModel.step] in E.
    - destruct (pcs s g); try discriminate E. now injection E as _ <-.
    - destruct (pcs s g); try discriminate E. destruct (c =? _)%nat; [|discriminate E]. now injection E as _ <-.
    - destruct (pcs s g); try discriminate E. destruct (c =? _)%nat; [|discriminate E]. now injection E as _ <-.
    - destruct (pcs s g); try discriminate E. destruct (nth_error _ c) as [[a|]|]; [| |discriminate E]; now injection E as _ <-.
    - destruct (pcs s g); try discriminate E. now injection E as _ <-.
    - destruct (pcs s g); try discriminate E. now injection E as _ <-.
    - pose proof (I_pc _ _ H g) as PC. destruct (pcs s g) as [|m k'|? ? ?|?]; try discriminate E. destruct (Z.eqb k' k); [|discriminate E]. injection E as _ <-.
      f_equal. rewrite <- (cur_get past s g H k), <- PC. destruct m; reflexivity.
    - destruct (pcs s g); try discriminate E. now injection E as _ <-.
    - pose proof (I_pc _ _ H g) as PC. destruct (pcs s g) as [|? ?|m k' v'|?]; try discriminate E. destruct ((k' =? k) && (v' =? v)); [|discriminate E].
      destruct (enabled past g) eqn:Q.
      + destruct (I_on _ _ H g Q) as (a & A & _). rewrite A in PC. subst m. now injection E as _ <-.
      + rewrite (I_off _ _ H g Q) in PC. subst m. now injection E as _ <-.
  Qed.

  Lemma once_app : forall evs past, started_once (rev evs ++ past) -> started_once past.
  Proof.
    intros evs. induction (rev evs) as [|e l IH]; intros past H; auto. apply IH. eapply once_cons. exact H.
  Qed.

  Lemma run_inv : forall evs past s s' os, Inv past s -> started_once (rev evs ++ past) -> run s evs = Some (s', os) -> Inv (rev evs ++ past) s'.
  Proof.
    induction evs as [|e evs IH]; intros past s s' os H ON E; cbn [GlsModel.run] in E.
    - injection E as <- _. exact H.
    - destruct (step s e) as [[s1 o]|] eqn:E1; [|discriminate E]. destruct (run s1 evs) as [[s2 os']|] eqn:E2; [|discriminate E]. injection E as <- _.
      cbn [rev] in *. rewrite <- app_assoc in *. cbn [app] in *. eapply IH; eauto. eapply step_inv; eauto. eapply once_app. exact ON.
  Qed.

  Lemma run_app : forall a b s, run s (a ++ b) =
    match run s a with None => None | Some (s1, o1) => match run s1 b with None => None | Some (s2, o2) => Some (s2, o1 ++ o2) end end.
  Proof.
    induction a as [|e a IH]; intros b s; cbn [app GlsModel.run].
    - destruct (run s b) as [[s2 o2]|]; reflexivity.
    - destruct (step s e) as [[s1 o]|]; [|reflexivity]. rewrite IH. destruct (run s1 a) as [[s2 o2]|]; [|reflexivity]. destruct (run s2 b) as [[s3 o3]|]; reflexivity.
  Qed.
End Proofs.
