(** Properties C119, C120, C121: the memory of the statistics of countlog. *)
From Coq Require Import Permutation.
From Verif Require Import Base MsgfmtModel StatsModel StatsProofs StatsMemModel StatsMemSpec StatsMemProofs.
Open Scope Z_scope.
Open Scope list_scope.

(** * C119 *)
Lemma get_increment : forall m d, get (increment m d) d = Some (uint64 (match get m d with Some c => c | None => 0 end + 1)).
Proof.
  induction m as [|(k & c) m IH]; intros d; cbn [increment get]; [now rewrite key_eqb_refl|].
  destruct (key_eqb k d) eqn:Q; cbn [get]; rewrite Q; [reflexivity|apply IH].
Qed.
Lemma get_increment_other : forall m d d', d' <> d -> get (increment m d) d' = get m d'.
Proof.
  induction m as [|(k & c) m IH]; intros d d' N; cbn [increment get].
  - destruct (key_eqb d d') eqn:Q; [apply key_eqb_eq in Q; congruence|reflexivity].
  - destruct (key_eqb k d) eqn:Q; cbn [get].
    + apply key_eqb_eq in Q. subst k. destruct (key_eqb d d') eqn:R; [apply key_eqb_eq in R; congruence|reflexivity].
    + destruct (key_eqb k d'); [reflexivity|]. now apply IH.
Qed.
(** An event adds one to the count of the texts its dimension has at that moment, and to nothing else. *)
Theorem C119_counted : forall w m indices p w', reached w -> mstep w (MHandle m indices p) = Some w' ->
  exists d, extract indices (asValues w p) = Some d /\
    get (counts w' m) d = Some ((countOf w m d + 1) mod 2 ^ 64) /\
    (forall d', d' <> d -> get (counts w' m) d' = get (counts w m) d') /\
    (forall m', m' <> m -> apart w m m' -> counts w' m' = counts w m').
Proof.
  intros w m indices p w' R E. apply reached_winv in R. destruct (step_handle _ _ _ _ _ R E) as (h' & -> & H & L & V).
  destruct (Handle_spec _ _ _ _ _ (w_inv _ R) L V H) as (strs & P & _ & _ & _ & _ & _ & _ & _ & AB & AO).
  exists (map (text (heap w)) strs). split; [unfold asValues; now rewrite pick_extract, P|].
  rewrite !counts_abs. cbn [heap]. rewrite AB. split; [apply get_increment|]. split; [intros; now apply get_increment_other|].
  intros m' D S. rewrite !counts_abs. now apply AO.
Qed.
(** By value this is the model of C34: what C34 proves of keys that are texts holds of the keys in memory. *)
Theorem C119_by_value : forall w m indices p w', reached w -> mstep w (MHandle m indices p) = Some w' ->
  exists d, extract indices (asValues w p) = Some d /\ counts w' m = increment (counts w m) d.
Proof.
  intros w m indices p w' R E. apply reached_winv in R. destruct (step_handle _ _ _ _ _ R E) as (h' & -> & H & L & V).
  destruct (Handle_spec _ _ _ _ _ (w_inv _ R) L V H) as (strs & P & _ & _ & _ & _ & _ & _ & _ & AB & AO).
  exists (map (text (heap w)) strs). split; [unfold asValues; now rewrite pick_extract, P|exact AB].
Qed.
(** It panics exactly when a property of the dimension is missing or is not a string: the arrays of the extractors are always large enough. *)
Theorem C119_panics : forall w m indices p, Handle (heap w) m indices p = None <-> extract indices (asValues w p) = None.
Proof.
  intros w m indices p. unfold asValues. rewrite pick_extract. unfold Handle, Extract. destruct (Nat.eqb_spec (List.length indices) 0) as [Z|Z].
  - destruct indices; [|discriminate Z]. cbn [pick map]. destruct (lookup (heap w) (mapOf (heap w) m) KZero); cbn [obind]; split; discriminate.
  - rewrite room_ltb. destruct (pick indices p); cbn [obind]; [|tauto].
    match goal with |- context [lookup ?a ?b ?c] => destruct (lookup a b c) end; cbn [obind]; [split; discriminate|].
    match goal with |- context [copyDimension ?a ?b] => destruct (copyDimension a b) end. cbn [obind]. split; discriminate.
Qed.
(** Whatever the rest of the program writes to its memory, to its stack and to the points it was given, the counts stay. *)
Theorem C119_kept : forall evs w w' m, reached w -> Forall ofProgram evs -> mruns w evs = Some w' -> counts w' m = counts w m.
Proof.
  induction evs as [|e evs IH]; intros w w' m R F E; cbn [mruns] in E; [injection E as <-; reflexivity|].
  destruct (mstep w e) as [w1|] eqn:Q; cbn [obind] in E; [|discriminate]. inversion_clear F as [|? ? P F'].
  assert (R1 : reached w1).
  { destruct R as (evs0 & R). exists (evs0 ++ [e]). clear - R Q. revert R. generalize start. induction evs0 as [|e0 evs0 IH]; intros s R; cbn in *.
    - injection R as ->. rewrite Q. reflexivity.
    - destruct (mstep s e0); cbn in *; [auto|discriminate]. }
  rewrite (IH _ _ m R1 F' E). pose proof (reached_winv _ R) as W. destruct (mstep_all _ _ _ W Q) as (_ & (K & _) & _).
  rewrite !counts_abs. unfold abs. assert (MC : maps (heap w1) = maps (heap w) /\ cells (heap w1) = cells (heap w)).
  { destruct e; try destruct P; cbn [mstep] in Q.
    - injection Q as <-. auto.
    - injection Q as <-. auto.
    - destruct (nth_error (blocks (heap w)) block) as [([|] & b0)|]; try discriminate. injection Q as <-. auto.
    - destruct (nth_error (arrays (heap w)) array) as [([|] & l)|] eqn:N; try discriminate. injection Q as <-. cbn [heap].
      rewrite (setArray_arrays _ _ _ _ N). auto. }
  destruct MC as (M & C). assert (MO : mapOf (heap w1) m = mapOf (heap w) m) by (unfold mapOf; now rewrite M). rewrite MO.
  apply map_ext_in. intros (k & c) X. apply view_keeps; [exact K|apply (inv_ok _ (w_inv _ W) _ _ _ X)|]. unfold cellOf. now rewrite C.
Qed.
(** The statistics write to no string of the program. *)
Theorem C119_strings : forall w e w' s, reached w -> ~ ofProgram e -> mstep w e = Some w' -> valid (heap w) s = true ->
  text (heap w') s = text (heap w) s.
Proof.
  intros w e w' s R N E V. apply reached_winv in R. apply text_grows; [|exact V].
  assert (Z : blocks (heap w') = blocks (heap w) -> exists bs, blocks (heap w') = blocks (heap w) ++ bs) by (intros ->; exists []; now rewrite app_nil_r).
  destruct e; try (exfalso; apply N; exact I).
  - cbn [mstep] in E. injection E as <-. now apply Z.
  - destruct (step_handle _ _ _ _ _ R E) as (h' & -> & H & L & VV). cbn [heap].
    now destruct (Handle_spec _ _ _ _ _ (w_inv _ R) L VV H) as (strs & P & _ & _ & B & _).
  - cbn [mstep] in E. destruct (busy w m || negb (m <? List.length (maps (heap w)))%nat); [discriminate|]. injection E as <-. now apply Z.
  - destruct (step_next _ _ _ _ E) as (X & k & c & NX & T & ->). apply Z. cbn [heap].
    now destruct (exportEntry_spec _ _ _ _ (w_inv _ R) (w_x _ R _ _ NX) (nth_error_In _ _ T)) as (_ & _ & _ & _ & B & _).
  - destruct (step_add _ _ _ _ _ E) as (es & AR & -> & L & L'). apply Z. cbn [heap].
    assert (S : forall e, In e es -> In e (mapOf (heap w) that)) by (intros e Q; eapply Permutation_in; [eapply arrange_perm; eauto|exact Q]).
    now destruct (addLoop_inv monoid that es (heap w) (w_inv _ R) L S) as (_ & B & _).
Qed.

(** * C120 *)
(** A point shows the texts and the count of one dimension, which goes to zero; the points given before stay. *)
Theorem C120_point : forall w x i w' X, reached w -> mstep w (MNext x i) = Some w' -> nth_error (exporting w) x = Some X ->
  Forall (fun e => List.length (fst e) = xn X) (counts w (xmap X)) ->
  exists p d c, given w' x = given w x ++ [p] /\ get (counts w (xmap X)) d = Some c /\
    stexts (heap w') (gDimension p) = d /\ gValue p = float64 c /\ get (counts w' (xmap X)) d = Some 0 /\
    (forall d', d' <> d -> get (counts w' (xmap X)) d' = get (counts w (xmap X)) d') /\
    (forall m', apart w (xmap X) m' -> counts w' m' = counts w m').
Proof.
  intros w x i w' X R E N F. pose proof (reached_winv _ R) as W. destruct (step_next _ _ _ _ E) as (X0 & k & c & N0 & T & ->).
  assert (X0 = X) by congruence. subst X0. pose proof (w_inv _ W) as I. pose proof (w_x _ W _ _ N) as XO.
  assert (IN : In (k, c) (mapOf (heap w) (xmap X))) by (apply XO; eapply nth_error_In; eauto).
  destruct (exportEntry_spec _ _ _ _ I XO (nth_error_In _ _ T)) as (I' & (K & _) & MP & CE & BL & AO & SL & GD & GV & LN & SK).
  set (h' := fst (exportEntry (heap w) X k c)) in *. set (p := snd (exportEntry (heap w) X k c)) in *.
  assert (KL : List.length (ktexts (heap w) k) = xn X).
  { rewrite Forall_forall in F. apply (F (view (heap w) (k, c))). unfold counts. apply (in_map (view (heap w))) in IN. exact IN. }
  destruct (inv_ok _ I _ _ _ IN) as [KO LC].
  exists p, (ktexts (heap w) k), (cellOf (heap w) c).
  assert (MO : forall m, mapOf h' m = mapOf (heap w) m) by (intros; unfold mapOf; now rewrite MP).
  assert (CO : forall c', cellOf h' c' = if (c' =? c)%nat then 0 else cellOf (heap w) c').
  { intros c'. unfold cellOf. rewrite CE. destruct (Nat.eqb_spec c' c) as [->|D]; [now apply nth_setNth_same|]. apply nth_setNth_other. auto. }
  rewrite !counts_abs. cbn [heap]. split; [|split; [|split; [|split; [|split; [|split]]]]].
  - unfold given. cbn [exporting]. rewrite setNth_same by (eapply nth_error_lt; eauto). rewrite N. reflexivity.
  - apply get_view_in; [apply I|exact IN].
  - rewrite stexts_slots, GD. cbn [sarray sfrom slength]. rewrite SK by exact KL. apply texts_keeps; [exact K|now apply kstrs_own].
  - exact GV.
  - rewrite <- (ktexts_keeps (heap w) h' k K KO). unfold abs. rewrite MO. rewrite (get_view_in h' _ k c); [|rewrite <- MO; apply I'|exact IN].
    now rewrite CO, Nat.eqb_refl.
  - intros d' D. unfold abs. rewrite MO. destruct (get (map (view (heap w)) (mapOf (heap w) (xmap X))) d') as [z|] eqn:G.
    + apply get_view_some in G as (k2 & c2 & Y & T2 & <-). rewrite <- T2. rewrite <- (ktexts_keeps (heap w) h' k2 K) by apply (inv_ok _ I _ _ _ Y).
      rewrite (get_view_in h' _ k2 c2); [|rewrite <- MO; apply I'|exact Y]. rewrite CO. destruct (Nat.eqb_spec c2 c) as [->|]; [|reflexivity].
      destruct D. rewrite <- T2. eapply inv_cell; eauto.
    + apply get_view_none. intros k2 c2 Y T2. rewrite (ktexts_keeps (heap w) h' k2 K) in T2 by apply (inv_ok _ I _ _ _ Y). subst d'.
      rewrite (get_view_in (heap w) _ k2 c2 (inv_nodup _ I _) Y) in G. discriminate.
  - intros m' A. rewrite !counts_abs. unfold abs. cbn [heap]. rewrite MO. apply map_ext_in. intros (k2 & c2) Y. apply view_keeps; [exact K|apply (inv_ok _ I _ _ _ Y)|].
    rewrite CO. destruct (Nat.eqb_spec c2 c) as [->|]; [|reflexivity]. destruct (A _ _ _ IN Y).
Qed.
(** It shows these texts for ever, whatever the statistics and the program do, if the program does not write to the dimension itself. *)
Theorem C120_kept : forall w0 x i w X p evs w', reached w0 -> mstep w0 (MNext x i) = Some w -> nth_error (exporting w0) x = Some X ->
  Forall (fun e => List.length (fst e) = xn X) (counts w0 (xmap X)) -> given w x = given w0 x ++ [p] ->
  mruns w evs = Some w' -> Forall (fun e => ~ writesTo (sarray (gDimension p)) e) evs ->
  stexts (heap w') (gDimension p) = stexts (heap w) (gDimension p).
Proof.
  intros w0 x i w X p evs w' R E N F G R' NW. pose proof (reached_winv _ R) as W0. destruct (mstep_all _ _ _ W0 E) as (W & _).
  destruct (step_next _ _ _ _ E) as (X0 & k & c & N0 & T & EW). assert (X0 = X) by congruence. subst X0.
  pose proof (w_inv _ W0) as I. pose proof (w_x _ W0 _ _ N) as XO.
  assert (IN : In (k, c) (mapOf (heap w0) (xmap X))) by (apply XO; eapply nth_error_In; eauto).
  destruct (exportEntry_spec _ _ _ _ I XO (nth_error_In _ _ T)) as (I' & (K & _) & MP & CE & BL & AO & SL & GD & GV & LN & SK).
  assert (KL : List.length (ktexts (heap w0) k) = xn X).
  { rewrite Forall_forall in F. apply (F (view (heap w0) (k, c))). unfold counts. apply (in_map (view (heap w0))) in IN. exact IN. }
  assert (PE : p = snd (exportEntry (heap w0) X k c)).
  { subst w. unfold given in G. cbn [exporting] in G. rewrite setNth_same in G by (eapply nth_error_lt; eauto). cbn [xgiven] in G. rewrite N in G.
    apply app_inv_head in G. congruence. }
  assert (ST : exists X1, nth_error (exporting w) x = Some X1 /\ xspace X1 = xspace X /\ xn X1 = xn X /\ (List.length (xgiven X) < List.length (xgiven X1))%nat).
  { subst w. cbn [exporting]. eexists. split; [apply setNth_same; eapply nth_error_lt; eauto|]. cbn [xspace xn xgiven]. rewrite app_length. cbn. repeat split; lia. }
  assert (OW : Forall (ostr (heap w)) (kstrs (heap w0) k)).
  { subst w. cbn [heap]. eapply Forall_impl; [intros s; apply ostr_keeps; exact K|]. apply kstrs_own. apply (inv_ok _ I _ _ _ IN). }
  rewrite <- PE in GD. rewrite GD in *. cbn [sarray] in NW. rewrite !stexts_slots. cbn [sarray sfrom slength].
  destruct XO as (_ & FR & _). rewrite FR in *.
  assert (S0 : slots (arrayOf (heap w) (xspace X)) (xn X * List.length (xgiven X)) (xn X) = kstrs (heap w0) k) by (subst w; apply SK; exact KL).
  clear - R' NW ST OW S0 W. rewrite S0. revert w S0 OW ST W R'. induction evs as [|e evs IH]; intros w S0 OW ST W R'; cbn [mruns] in R'.
  - injection R' as <-. now rewrite S0.
  - destruct (mstep w e) as [w1|] eqn:Q; cbn [obind] in R'; [|discriminate]. inversion_clear NW as [|? ? NE NW'].
    destruct (mstep_all _ _ _ W Q) as (W1 & (K & _) & PS & UN). destruct ST as (X1 & N1 & XS & XN & XL).
    rewrite <- (texts_keeps (heap w) (heap w1) _ K OW). apply IH; auto.
    + destruct e; try (rewrite <- XS, <- XN; rewrite (UN ltac:(discriminate) x X1 _ N1 XL); now rewrite XS, XN).
      rewrite <- S0. cbn [mstep] in Q. destruct (nth_error (arrays (heap w)) array) as [([|] & l)|] eqn:NA; try discriminate. injection Q as <-. cbn [heap].
      rewrite (arrayOf_set _ _ _ _ _ NA). destruct (Nat.eqb_spec (xspace X) array) as [EQ|]; [destruct NE; cbn; congruence|reflexivity].
    + eapply Forall_impl; [|exact OW]. intros s. now apply ostr_keeps.
    + destruct (PS _ _ N1) as (X2 & N2 & A & B & _ & l & C). exists X2. rewrite C, app_length. repeat split; try congruence. lia.
Qed.
Lemma given_slice : forall w x i p, winv w -> nth_error (given w x) i = Some p -> exists X l, nth_error (exporting w) x = Some X /\
  nth_error (xgiven X) i = Some p /\ nth_error (arrays (heap w)) (xspace X) = Some (false, l) /\
  List.length l = (xn X * (List.length (xgiven X) + List.length (xtodo X)))%nat /\
  gDimension p = mkSlice (xspace X) (xn X * i) (xn X) (List.length l - xn X * i).
Proof.
  intros w x i p W G. unfold given in G. destruct (nth_error (exporting w) x) as [X|] eqn:N; [|destruct i; discriminate].
  destruct (w_x _ W _ _ N) as (_ & _ & l & A & L & GI). exists X, l. repeat split; auto.
Qed.
(** Writing to the elements of the dimension of one point leaves every other point. *)
Theorem C120_apart : forall w x i p y j q k s w', reached w -> nth_error (given w x) i = Some p -> nth_error (given w y) j = Some q ->
  (x, i) <> (y, j) -> (k < slength (gDimension p))%nat ->
  mstep w (PSet (sarray (gDimension p)) (sfrom (gDimension p) + k) s) = Some w' ->
  stexts (heap w') (gDimension q) = stexts (heap w) (gDimension q).
Proof.
  intros w x i p y j q k s w' R GP GQ D L E. apply reached_winv in R.
  destruct (given_slice _ _ _ _ R GP) as (X & l & NX & _ & A & LL & DP). destruct (given_slice _ _ _ _ R GQ) as (Y & l' & NY & _ & A' & LL' & DQ).
  rewrite DP in *. cbn [sarray sfrom slength] in *. cbn [mstep] in E. rewrite A in E. injection E as <-. cbn [heap].
  rewrite !stexts_slots, DQ. cbn [sarray sfrom slength]. rewrite (arrayOf_set _ _ _ _ _ A).
  change (text (setArray (heap w) (xspace X) (setNth l (xn X * i + k) s))) with
    (fun s0 => text (setArray (heap w) (xspace X) (setNth l (xn X * i + k) s)) s0).
  rewrite (map_ext _ (text (heap w))); [|intros s0; unfold text; now rewrite (setArray_arrays _ _ _ _ A)].
  destruct (Nat.eqb_spec (xspace Y) (xspace X)) as [EX|]; [|reflexivity].
  assert (y = x) by (eapply (w_d _ R); eauto). subst y. assert (Y = X) by congruence. subst Y.
  f_equal. unfold arrayOf. rewrite A. apply slots_set_out. assert (i <> j) by congruence. nia.
Qed.
(** Appending to the dimension of the last point of an export leaves every other point. *)
Theorem C120_append_last : forall w x i p X y j q s, reached w -> nth_error (exporting w) x = Some X -> xtodo X = [] ->
  nth_error (given w x) i = Some p -> S i = List.length (given w x) -> nth_error (given w y) j = Some q ->
  stexts (fst (goAppend (heap w) (gDimension p) s)) (gDimension q) = stexts (heap w) (gDimension q).
Proof.
  intros w x i p X y j q s R N T GP L GQ. apply reached_winv in R. unfold given in L. rewrite N in L.
  destruct (given_slice _ _ _ _ R GP) as (X1 & l & NX & _ & A & LL & DP). assert (X1 = X) by congruence. subst X1.
  destruct (given_slice _ _ _ _ R GQ) as (Y & l' & NY & _ & A' & LL' & DQ).
  rewrite T, Nat.add_0_r, <- L in LL. unfold goAppend. rewrite DP. cbn [slength scap].
  replace (xn X <? List.length l - xn X * i)%nat with false by (symmetry; apply Nat.ltb_ge; nia). cbn [fst].
  rewrite !stexts_slots. f_equal. f_equal. rewrite DQ. cbn [sarray]. unfold arrayOf. cbn [newArray arrays]. rewrite nth_error_app1 by (eapply nth_error_lt; eauto). reflexivity.
Qed.
(** Full claim: what the collector does with one point does not show in another.  It is false of the code: the dimensions are slices of one
    array with room up to its end, so that append writes to the dimension of the next point. *)
Definition C120_full : Prop := forall w x i p j q s, reached w -> nth_error (given w x) i = Some p -> nth_error (given w x) j = Some q -> i <> j ->
  stexts (fst (goAppend (heap w) (gDimension p) s)) (gDimension q) = stexts (heap w) (gDimension q).
Theorem C120_append_refuted : forall w x i p q s, reached w -> nth_error (given w x) i = Some p -> nth_error (given w x) (S i) = Some q ->
  (0 < slength (gDimension p))%nat ->
  stexts (fst (goAppend (heap w) (gDimension p) s)) (gDimension q) = text (heap w) s :: tl (stexts (heap w) (gDimension q)).
Proof.
  intros w x i p q s R GP GQ L. apply reached_winv in R.
  destruct (given_slice _ _ _ _ R GP) as (X & l & NX & GI & A & LL & DP). destruct (given_slice _ _ _ _ R GQ) as (Y & l' & NY & GJ & A' & LL' & DQ).
  assert (Y = X) by congruence. subst Y. assert (l' = l) by congruence. subst l'. rewrite DP in *. cbn [slength] in L.
  apply nth_error_lt in GJ. unfold goAppend. cbn [slength scap]. replace (xn X <? List.length l - xn X * i)%nat with true by (symmetry; apply Nat.ltb_lt; nia).
  cbn [fst sarray sfrom]. assert (AO : arrayOf (heap w) (xspace X) = l) by (unfold arrayOf; now rewrite A). rewrite AO.
  rewrite !stexts_slots, DQ. cbn [sarray sfrom slength]. rewrite (arrayOf_set _ _ _ _ _ A), Nat.eqb_refl, AO.
  replace (xn X * i + xn X)%nat with (xn X * S i)%nat by lia.
  rewrite (map_ext _ (text (heap w))); [|intros s0; unfold text; now rewrite (setArray_arrays _ _ _ _ A)].
  assert (SP : (xn X * S i < List.length l)%nat) by nia. rewrite setNth_split by exact SP. unfold slots.
  assert (LF : List.length (firstn (xn X * S i) l) = (xn X * S i)%nat) by (rewrite firstn_length; lia).
  rewrite skipn_app, LF, Nat.sub_diag. rewrite (skipn_all2 (firstn (xn X * S i) l)) by lia. rewrite skipn_O. cbn [app].
  destruct (xn X) as [|n]; [lia|]. cbn [firstn map]. f_equal.
  destruct (nth_error l (S n * S i)) as [y|] eqn:NY'; [|apply nth_error_None in NY'; lia].
  apply nth_error_split in NY' as (l1 & l2 & EL & L1). rewrite EL. rewrite <- L1.
  rewrite !skipn_app. rewrite !(skipn_all2 l1) by lia.
  replace (S (List.length l1) - List.length l1)%nat with 1%nat by lia. rewrite Nat.sub_diag. reflexivity.
Qed.

(** * Examples for C119, C120 *)
Definition ex_user (b : nat) : list (option str) := [Some (mkStr b 0 4); Some (mkStr b 4 1)].
Lemma apart_by : forall w a b, forallb (fun e => forallb (fun e' => negb (snd e =? snd e')%nat) (mapOf (heap w) b)) (mapOf (heap w) a) = true -> apart w a b.
Proof.
  intros w a b F k c k' A B. rewrite forallb_forall in F. specialize (F _ A). rewrite forallb_forall in F. specialize (F _ B). cbn in F.
  now rewrite Nat.eqb_refl in F.
Qed.
(** An event of user a; its memory is used again, for another event of user a and one of user b; then the program overwrites everything it can. *)
Definition ex_count : list mevent :=
  [PBlock (bs "usera"); MNew; MNew; MHandle 0 [0; 1]%nat (ex_user 0); MHandle 0 [0; 1]%nat (ex_user 0); PWrite 0 (bs "userb");
   MHandle 0 [0; 1]%nat (ex_user 0); PWrite 0 (bs "*****"); PSet 0 0 noStr; PSet 2 1 noStr].
Definition ex_w : world := match mruns start ex_count with Some w => w | None => start end.
Lemma ex_w_reached : reached ex_w.
Proof. exists ex_count. vm_compute. reflexivity. Qed.
Example C119_example : counts ex_w 0 = [([bs "user"; bs "a"], 2); ([bs "user"; bs "b"], 1)] /\ counts ex_w 1 = [].
Proof. vm_compute. auto. Qed.
Example C119_counted_example : exists w', mstep ex_w (MHandle 0 [0; 1]%nat [Some (mkStr 2 0 1); Some (mkStr 0 3 2)]) = Some w' /\
  extract [0; 1]%nat (asValues ex_w [Some (mkStr 2 0 1); Some (mkStr 0 3 2)]) = Some [bs "a"; bs "**"] /\ apart ex_w 0 1 /\
  Handle (heap ex_w) 0 [0; 1]%nat [Some (mkStr 2 0 1); None] = None.
Proof. eexists. split; [vm_compute; reflexivity|]. split; [vm_compute; reflexivity|]. split; [apply apart_by; vm_compute; reflexivity|vm_compute; reflexivity]. Qed.
Example C119_kept_example : exists w', mruns ex_w [PWrite 0 (bs "again"); PArray [noStr]; PSet 0 1 (mkStr 0 0 3)] = Some w' /\ valid (heap ex_w) (mkStr 0 0 5) = true /\
  (exists w'', mstep ex_w (MAdd 1 0 [1; 0]%nat) = Some w'' /\ text (heap w'') (mkStr 0 0 5) = bs "*****").
Proof. eexists. split; [vm_compute; reflexivity|]. split; [vm_compute; reflexivity|]. eexists. split; vm_compute; reflexivity. Qed.

Definition ex_export : list mevent := [MBegin 0 2; MNext 0 1; MNext 0 0].
Definition ex_wx : world := match mruns ex_w ex_export with Some w => w | None => start end.
Lemma ex_wx_reached : reached ex_wx.
Proof. exists (ex_count ++ ex_export). vm_compute. reflexivity. Qed.
Example C120_example : map (fun p => (stexts (heap ex_wx) (gDimension p), gValue p)) (given ex_wx 0) = [([bs "user"; bs "b"], 1); ([bs "user"; bs "a"], 2)] /\
  counts ex_wx 0 = [([bs "user"; bs "a"], 0); ([bs "user"; bs "b"], 0)].
Proof. vm_compute. auto. Qed.
Example C120_kept_example : exists w0 w X p w', mruns ex_w [MBegin 0 2] = Some w0 /\ mstep w0 (MNext 0 1) = Some w /\ nth_error (exporting w0) 0 = Some X /\
  forallb (fun e => (List.length (fst e) =? xn X)%nat) (counts w0 (xmap X)) = true /\ given w 0 = given w0 0 ++ [p] /\
  mruns w [MHandle 1 [0; 1]%nat (ex_user 0); PWrite 0 (bs "?????"); MNext 0 0; MHandle 0 [0; 1]%nat (ex_user 0)] = Some w' /\
  stexts (heap w') (gDimension p) = [bs "user"; bs "b"].
Proof. do 5 eexists. repeat (split; [vm_compute; reflexivity|]). vm_compute. reflexivity. Qed.
Example C120_append_example : exists p q, nth_error (given ex_wx 0) 0 = Some p /\ nth_error (given ex_wx 0) 1 = Some q /\
  stexts (fst (goAppend (heap ex_wx) (gDimension p) (mkStr 0 0 5))) (gDimension q) = [bs "*****"; bs "a"] /\
  stexts (fst (goAppend (heap ex_wx) (gDimension q) (mkStr 0 0 5))) (gDimension p) = [bs "user"; bs "b"] /\
  stexts (fst (goAppend (heap ex_wx) (gDimension q) (mkStr 0 0 5))) (snd (goAppend (heap ex_wx) (gDimension q) (mkStr 0 0 5))) = [bs "user"; bs "a"; bs "*****"].
Proof. do 2 eexists. repeat (split; [vm_compute; reflexivity|]). vm_compute. reflexivity. Qed.
Theorem C120_full_refuted : ~ C120_full.
Proof.
  intros F. destruct C120_append_example as (p & q & P & Q & _).
  assert (H := F ex_wx 0%nat 0%nat p 1%nat q (mkStr 0 0 5) ex_wx_reached P Q ltac:(discriminate)).
  rewrite (C120_append_refuted ex_wx 0 0 p q (mkStr 0 0 5) ex_wx_reached P Q) in H.
  - vm_compute in P, Q. injection P as <-. injection Q as <-. vm_compute in H. discriminate H.
  - vm_compute in P. injection P as <-. cbn. lia.
Qed.

(** * C121 *)
(** Adding a map to another adds up the counts of each dimension and leaves the map that is added, if no counter is in both. *)
Theorem C121_sum : forall w a b order w', reached w -> a <> b -> apart w a b -> mstep w (MAdd a b order) = Some w' ->
  (forall d, get (counts w' a) d = summed (get (counts w a) d) (get (counts w b) d)) /\ counts w' b = counts w b /\
  (forall m, m <> a -> apart w a m -> apart w b m -> counts w' m = counts w m).
Proof.
  intros w a b order w' R D A E. apply reached_winv in R. pose proof (w_inv _ R) as I.
  destruct (step_add _ _ _ _ _ E) as (es & AR & -> & L & L'). pose proof (arrange_perm _ _ _ _ AR) as P.
  assert (S : forall e, In e es -> In e (mapOf (heap w) b)) by (intros e Q; eapply Permutation_in; eauto).
  assert (N : NoDup (map (fun e => ktexts (heap w) (fst e)) es)).
  { eapply Permutation_NoDup; [|apply (inv_nodup _ I b)]. apply Permutation_map. now symmetry. }
  destruct (addLoop_sum a b D es (heap w) I L S N) as (G & B & M).
  { intros k c k' X Y. destruct (A _ _ _ X Y). }
  split; [|split; [exact B|exact M]].
  intros d. rewrite !counts_abs. cbn [heap]. rewrite G. f_equal. apply get_perm; [apply I|exact P].
Qed.
(** A map added to itself: every count is doubled. *)
Theorem C121_self : forall w a order w', reached w -> mstep w (MAdd a a order) = Some w' ->
  counts w' a = map (fun e => (fst e, (snd e + snd e) mod 2 ^ 64)) (counts w a).
Proof.
  intros w a order w' R E. apply reached_winv in R. pose proof (w_inv _ R) as I.
  destruct (step_add _ _ _ _ _ E) as (es & AR & -> & L & L'). pose proof (arrange_perm _ _ _ _ AR) as P.
  assert (S : forall e, In e es -> In e (mapOf (heap w) a)) by (intros e Q; eapply Permutation_in; eauto).
  assert (N : NoDup (map (fun e => ktexts (heap w) (fst e)) es)).
  { eapply Permutation_NoDup; [|apply (inv_nodup _ I a)]. apply Permutation_map. now symmetry. }
  destruct (addLoop_self a es (heap w) I S N) as (M & C).
  destruct (addLoop_inv a a es (heap w) I L S) as (_ & B & A & _).
  rewrite !counts_abs. unfold abs. cbn [heap]. rewrite M, map_map. apply map_ext_in. intros (k & c) X. unfold view. cbn [fst snd].
  rewrite (C k c X). replace (existsb (fun e => (snd e =? c)%nat) es) with true.
  - f_equal. apply ktexts_keeps; [now apply keeps_same|]. apply (inv_ok _ I _ _ _ X).
  - symmetry. apply existsb_exists. exists (k, c). split; [eapply Permutation_in; [symmetry; exact P|exact X]|apply Nat.eqb_refl].
Qed.
(** Full claim: what is counted in one map afterwards shows in that map only.  It is false of the code: a dimension that was missing
    is added with the counter of the other map. *)
Definition C121_full : Prop := forall w a b order w1 indices p w2, reached w -> a <> b -> apart w a b ->
  mstep w (MAdd a b order) = Some w1 -> mstep w1 (MHandle b indices p) = Some w2 -> counts w2 a = counts w1 a.
Definition ex_a : list mevent :=
  ex_count ++ [PWrite 0 (bs "usera"); MHandle 1 [0; 1]%nat (ex_user 0); PWrite 0 (bs "userb")].
Definition ex_wa : world := match mruns start ex_a with Some w => w | None => start end.
Lemma ex_wa_reached : reached ex_wa.
Proof. exists ex_a. vm_compute. reflexivity. Qed.
Definition ex_wb : world := match mstep ex_wa (MAdd 1 0 [1; 0]%nat) with Some w => w | None => start end.
Lemma ex_wb_reached : reached ex_wb.
Proof. exists (ex_a ++ [MAdd 1 0 [1; 0]%nat]). vm_compute. reflexivity. Qed.
Lemma ex_apart : apart ex_wa 1 0.
Proof. apply apart_by. vm_compute. reflexivity. Qed.
Example C121_example : apart ex_wa 1 0 /\ mstep ex_wa (MAdd 1 0 [1; 0]%nat) = Some ex_wb /\
  counts ex_wa 1 = [([bs "user"; bs "a"], 1)] /\ counts ex_wa 0 = [([bs "user"; bs "a"], 2); ([bs "user"; bs "b"], 1)] /\
  counts ex_wb 1 = [([bs "user"; bs "a"], 3); ([bs "user"; bs "b"], 1)] /\ counts ex_wb 0 = counts ex_wa 0.
Proof. split; [exact ex_apart|]. vm_compute. repeat split. Qed.
Example C121_self_example : exists w', mstep ex_wa (MAdd 0 0 [1; 0]%nat) = Some w' /\ counts w' 0 = [([bs "user"; bs "a"], 4); ([bs "user"; bs "b"], 2)].
Proof. eexists. split; vm_compute; reflexivity. Qed.
(** After the sum, an event of user b is counted in both maps; the export of one takes the counts of the other; and adding a second time changes
    the map that is added. *)
Theorem C121_shared_refuted : exists w, reached w /\ (exists w1, mstep w (MHandle 0 [0; 1]%nat (ex_user 0)) = Some w1 /\
    countOf w 1 [bs "user"; bs "b"] = 1 /\ countOf w1 1 [bs "user"; bs "b"] = 2) /\
  (exists w1, mruns w [MBegin 1 2; MNext 0 0; MNext 0 0] = Some w1 /\ countOf w 0 [bs "user"; bs "b"] = 1 /\ countOf w1 0 [bs "user"; bs "b"] = 0) /\
  (exists w1, mstep w (MAdd 1 0 [0; 0]%nat) = Some w1 /\ countOf w1 0 [bs "user"; bs "b"] = 2).
Proof.
  exists ex_wb. split; [exact ex_wb_reached|]. split; [|split]; eexists; (split; [vm_compute; reflexivity|]); vm_compute; auto.
Qed.
Theorem C121_full_refuted : ~ C121_full.
Proof.
  intros F.
  assert (W : exists w2, mstep ex_wb (MHandle 0 [0; 1]%nat (ex_user 0)) = Some w2 /\ countOf w2 1 [bs "user"; bs "b"] = 2)
    by (eexists; split; vm_compute; reflexivity).
  destruct W as (w2 & E & C).
  assert (H : counts w2 1 = counts ex_wb 1).
  { apply (F ex_wa 1%nat 0%nat [1; 0]%nat ex_wb [0; 1]%nat (ex_user 0) w2 ex_wa_reached ltac:(discriminate) ex_apart); [vm_compute; reflexivity|exact E]. }
  unfold countOf in C. rewrite H in C.
  assert (C' : countOf ex_wb 1 [bs "user"; bs "b"] = 1) by (vm_compute; reflexivity). unfold countOf in C'. congruence.
Qed.

Print Assumptions C119_counted.
Print Assumptions C119_by_value.
Print Assumptions C119_panics.
Print Assumptions C119_kept.
Print Assumptions C119_strings.
Print Assumptions C120_point.
Print Assumptions C120_kept.
Print Assumptions C120_apart.
Print Assumptions C120_append_last.
Print Assumptions C120_append_refuted.
Print Assumptions C120_full_refuted.
Print Assumptions C121_sum.
Print Assumptions C121_self.
Print Assumptions C121_shared_refuted.
Print Assumptions C121_full_refuted.

(** ** The lock of a map *)
(** Nothing is counted, added or exported anew in a map while one of its exports has entries left; the exports of other maps hold nothing up. *)
Theorem C120_locked : forall w X m, In X (exporting w) -> xmap X = m -> xtodo X <> [] ->
  (forall indices p, mstep w (MHandle m indices p) = None) /\ (forall n, mstep w (MBegin m n) = None) /\
  (forall that order, mstep w (MAdd m that order) = None) /\ (forall monoid order, mstep w (MAdd monoid m order) = None).
Proof.
  intros w X m I E T. assert (B : busy w m = true).
  { unfold busy. apply existsb_exists. exists X. split; [exact I|]. rewrite E, Nat.eqb_refl. destruct (xtodo X); [congruence|reflexivity]. }
  repeat split; intros; cbn [mstep]; rewrite B; cbn [orb]; rewrite ?Bool.orb_true_r; reflexivity.
Qed.
Theorem C120_not_locked : forall w m, (forall X, In X (exporting w) -> xmap X = m -> xtodo X = []) -> (m < List.length (maps (heap w)))%nat ->
  (forall n, mstep w (MBegin m n) <> None) /\
  (forall indices p, Forall (fun s => valid (heap w) s = true) (flat_map (fun o => match o with Some s => [s] | None => [] end) p) ->
    mstep w (MHandle m indices p) = None <-> Handle (heap w) m indices p = None).
Proof.
  intros w m F L. assert (B : busy w m = false).
  { unfold busy. destruct (existsb _ (exporting w)) eqn:Q; [|reflexivity]. apply existsb_exists in Q. destruct Q as (X & I & Q).
    apply andb_prop in Q. destruct Q as [Q1 Q2]. apply Nat.eqb_eq in Q1. rewrite (F X I Q1) in Q2. discriminate Q2. }
  apply Nat.ltb_lt in L. split.
  - intros n. cbn [mstep]. rewrite B, L. discriminate.
  - intros indices p V. cbn [mstep]. rewrite B, L. cbn [orb negb].
    replace (forallb (fun o => match o with Some s => valid (heap w) s | None => true end) p) with true.
    + cbn [negb]. unfold obind. destruct (Handle (heap w) m indices p); split; congruence.
    + symmetry. apply forallb_forall. intros [s|] I; [|reflexivity]. rewrite Forall_forall in V. apply V. apply in_flat_map.
      exists (Some s). split; [exact I|now left].
Qed.
Print Assumptions C120_locked.
Print Assumptions C120_not_locked.
Example C120_locked_example : exists w0 X, mruns ex_w [MBegin 0 2] = Some w0 /\ In X (exporting w0) /\ xmap X = 0%nat /\ xtodo X <> [] /\
  (1 < List.length (maps (heap w0)))%nat /\ (forall Y, In Y (exporting w0) -> xmap Y = 1%nat -> xtodo Y = []).
Proof.
  eexists. eexists. split; [vm_compute; reflexivity|]. split; [left; reflexivity|]. split; [reflexivity|]. split; [discriminate|].
  split; [cbn; lia|]. intros Y [<-|[]] E. discriminate E.
Qed.
