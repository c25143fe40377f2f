(** Proofs about sorted keys and about addresses *)
From Verif Require Import Base SpewModel SpewSpec SpewProofs SpewProofs2 SpewProofs3.
Open Scope Z_scope.
Open Scope list_scope.
From Coq Require Import Permutation Lia.

(** ** What less means *)
Lemma bytesLess_lex a b : bytesLess a b = true <-> lexBefore a b.
Proof.
  revert b. induction a as [|x a IH]; intros [|y b]; cbn [bytesLess].
  - split; [discriminate|]. intros [(z & c & E)|(p & z & w & c & d & E & _)]; [discriminate|destruct p; discriminate].
  - split; [|reflexivity]. intros _. left. exists y, b. reflexivity.
  - split; [discriminate|]. intros [(z & c & E)|(p & z & w & c & d & _ & E & _)]; [discriminate|destruct p; discriminate].
  - rewrite orb_true_iff, andb_true_iff, Z.ltb_lt, Z.eqb_eq, IH. split.
    + intros [L|[<- [(z & c & E)|(p & z & w & c & d & E1 & E2 & L)]]].
      * right. exists [], x, y, a, b. auto.
      * left. exists z, c. rewrite E. reflexivity.
      * right. exists (x :: p), z, w, c, d. rewrite E1, E2. auto.
    + intros [(z & c & E)|(p & z & w & c & d & E1 & E2 & L)].
      * cbn in E. assert (y = x) by congruence. assert (b = a ++ z :: c) by congruence. right. split; [auto|]. left. eauto.
      * destruct p as [|q p]; cbn in E1, E2.
        -- left. congruence.
        -- right. split; [congruence|]. right. exists p, z, w, c, d. split; [congruence|]. split; [congruence|exact L].
Qed.

Section Sorted.
  Variable valueEq : sval -> sval -> bool.
  Hypothesis eqKeys : forall a b, sameKind a b -> (valueEq a b = true <-> a = b).
  Notation less := (valueSortLess valueEq).
  Lemma less_before a : forall b, sameKind a b -> less a b = true -> before a b.
  Proof.
    induction a as [ty l IH|v Hv] using arr_ind; intros b K L.
    - inversion K as [| | | | | |t l1 l2 KS]; subst. rewrite less_arr in L by assumption. clear K.
      enough (G : exists p x y c d, l = p ++ x :: c /\ l2 = p ++ y :: d /\ before x y) by (destruct G as (p & x & y & c & d & -> & -> & B); constructor; exact B).
      revert IH L. induction KS as [|x y l l2 K1 K2 IH2]; intros IH L; [discriminate|]. cbn [arrLess] in L. inversion IH as [|x0 l0 I1 I2]; subst.
      destruct (valueEq x y) eqn:E.
      + apply eqKeys in E; [|exact K1]. subst y. destruct (IH2 I2 L) as (p & x' & y' & c & d & -> & -> & B). exists (x :: p), x', y', c, d. auto.
      + exists [], x, y, l, l2. auto.
    - inversion K; subst; cbn [valueSortLess] in L; try (exfalso; eapply Hv; reflexivity); try (apply Z.ltb_lt in L); try (apply bytesLess_lex in L); try (constructor; exact L).
      destruct a, b0; try discriminate. constructor.
  Qed.

  Variable method : sval -> option mcall.
  Variable spewKey : sval -> bytes.
  Variable cs : config.
  Notation keyLess := (keyLess method valueEq spewKey cs).
  Notation sortTexts := (sortTexts method spewKey cs).
  Lemma nodup_distinct l : NoDup (map fst l) -> distinctKeys l.
  Proof.
    unfold distinctKeys. induction l as [|x l IH]; cbn [map]; intros N a b Ia Ib E; [destruct Ia|]. inversion N; subst.
    destruct Ia as [<-|Ia], Ib as [<-|Ib]; [reflexivity| | |auto]; exfalso; match goal with H : ~ In _ _ |- _ => apply H end; [rewrite E|rewrite <- E]; apply in_map; assumption.
  Qed.
  Lemma sorted_pairs (f : entry -> entry -> bool) (R : entry -> entry -> Prop) l : sorted f l -> NoDup l -> orders f l -> (forall a b, In a l -> In b l -> f a b = true -> R a b) -> ForallOrdPairs R l.
  Proof.
    induction 1 as [|x l F S IH]; intros N O H; [constructor|]. inversion N; subst. constructor.
    - apply Forall_forall. intros y I. apply H; [left; reflexivity|right; exact I|]. destruct (f x y) eqn:E; [reflexivity|]. exfalso.
      assert (x = y); [|subst; contradiction]. destruct O as (_ & _ & T). apply T; [left; reflexivity|right; exact I|exact E|apply F, I].
    - apply IH; [assumption| |intros; apply H; [right|right|]; assumption]. destruct O as (A & B & C). repeat split; [intros; apply A; right; assumption| |].
      + intros a b c Ia Ib Ic. apply B; right; assumption.
      + intros a b Ia Ib. apply C; right; assumption.
  Qed.
  Variable sortBy : (entry -> entry -> bool) -> list entry -> list entry.
  Hypothesis srt : sorts sortBy.
  Lemma plain_ascending l : plainKeys l -> NoDup (map fst l) -> ForallOrdPairs (fun a b => before (fst a) (fst b)) (sortBy (keyLess l) l).
  Proof.
    intros P N. destruct (srt (keyLess l) l) as [Pm S]. pose proof (plain_orders valueEq eqKeys method spewKey cs l P (nodup_distinct l N)) as O.
    apply (sorted_pairs (keyLess l)); [auto| | |].
    - eapply Permutation_NoDup; [apply Permutation_sym, Pm|]. eapply NoDup_map_inv. exact N.
    - eapply orders_perm; [apply Permutation_sym, Pm|exact O].
    - intros a b Ia Ib L. apply (Permutation_in _ Pm) in Ia. apply (Permutation_in _ Pm) in Ib. rewrite (plain_less valueEq method spewKey cs l) in L by assumption. destruct P as [P|P].
      + apply less_before; auto.
      + pose proof (P a b Ia Ib) as K. destruct K. cbn in L. apply Z.ltb_lt in L. constructor. exact L.
  Qed.
  Lemma byText_simple v : byText v -> canSortSimply v = false.
  Proof. intros []; reflexivity. Qed.
  Lemma texts_ascending l f : (forall a, In a l -> byText (fst a)) -> sortTexts l = Some f -> NoDup (map (fun e => f (fst e)) l) ->
    ForallOrdPairs (fun a b => lexBefore (f (fst a)) (f (fst b))) (sortBy (keyLess l) l).
  Proof.
    intros B T N. destruct (srt (keyLess l) l) as [Pm S].
    assert (D : forall a b, In a l -> In b l -> f (fst a) = f (fst b) -> a = b).
    { clear - N. induction l as [|x l IH]; intros a b Ia Ib E; [destruct Ia|]. cbn [map] in N. inversion N as [|x0 l0 N1 N2]; subst.
      destruct Ia as [<-|Ia], Ib as [<-|Ib]; [reflexivity| | |auto]; exfalso; apply N1; [rewrite E|rewrite <- E]; exact (in_map (fun e => f (fst e)) _ _ ltac:(eassumption)). }
    assert (BS : forall a, In a l -> canSortSimply (fst a) = false) by (intros; apply byText_simple; auto).
    pose proof (texts_orders valueEq method spewKey cs l f BS T D) as O.
    apply (sorted_pairs (keyLess l)); [auto| | |].
    - eapply Permutation_NoDup; [apply Permutation_sym, Pm|]. eapply NoDup_map_inv. exact N.
    - eapply orders_perm; [apply Permutation_sym, Pm|exact O].
    - intros a b Ia Ib L. apply (Permutation_in _ Pm) in Ia. unfold SpewModel.keyLess in L. destruct l as [|[k x] l]; [destruct Ia|]. pose proof (BS (k, x) (or_introl eq_refl)) as E. cbn [fst] in E.
      rewrite E, T in L. apply bytesLess_lex. exact L.
  Qed.

  (** ** Dump with SortKeys is Dump of maps that are in order *)
  Variable decimal : Z -> bytes.
  Variable quote : bytes -> bytes.
  Variable hexDump : bytes -> bytes.
  Notation dump cs := (dump decimal quote hexDump method valueEq spewKey sortBy cs).
  Definition dor (r r' : dres) : Prop := r = DPanic \/ r = r'.
  Lemma dor_refl r : dor r r.
  Proof. right. reflexivity. Qed.
  Lemma dor_bind r r' f f' : dor r r' -> (forall st, dor (f st) (f' st)) -> dor (dbind r f) (dbind r' f').
  Proof. intros [-> | ->] H; [left; reflexivity|]. destruct r'; cbn [dbind]; [apply H|apply dor_refl|apply dor_refl]. Qed.
  Lemma sliceLoop_dor d d' : (forall v st, dor (d v st) (d' v st)) -> forall l st, dor (sliceLoop d l st) (sliceLoop d' l st).
  Proof. intros E. induction l as [|v l IH]; intros st; [apply dor_refl|]. cbn [sliceLoop]. apply dor_bind; [apply E|]. intros st'. destruct l; [apply dor_refl|apply IH]. Qed.
  Lemma structLoop_dor d d' : (forall ro v st, dor (d ro v st) (d' ro v st)) -> forall ro l st, dor (structLoop cs d ro l st) (structLoop (unsorted cs) d' ro l st).
  Proof. intros E ro. induction l as [|[[n e] v] l IH]; intros st; [apply dor_refl|]. cbn [structLoop]. apply dor_bind; [apply E|]. intros st'. destruct l; [apply dor_refl|apply IH]. Qed.
  Lemma mapLoop_dor d d' : (forall v st, dor (d v st) (d' v st)) -> forall l st, dor (mapLoop d l st) (mapLoop d' l st).
  Proof.
    intros E. induction l as [|[k v] l IH]; intros st; [apply dor_refl|]. cbn [mapLoop]. apply dor_bind; [apply E|]. intros st1. apply dor_bind; [destruct v; [apply E|apply dor_refl]|].
    intros st2. destruct l; [apply dor_refl|apply IH].
  Qed.
  Lemma braces_dor b b' : (forall st, dor (b st) (b' st)) -> forall st, dor (braces cs b st) (braces (unsorted cs) b' st).
  Proof. intros E st. unfold braces. cbn [unsorted MaxDepth]. apply dor_bind; [|intros; apply dor_refl]. destruct (negb (MaxDepth cs =? 0)%nat && _); [apply dor_refl|apply E]. Qed.
  Definition inOrder (h : heap) : heap := {| cell := cell h; elems := elems h; entries := fun r => sortBy (keyLess (entries h r)) (entries h r) |}.
  Lemma inOrder_perm h : reordered h (inOrder h).
  Proof. split; [reflexivity|]. split; [reflexivity|]. intros r. apply srt. Qed.
  Lemma dump_sorted h : SortKeys cs = true -> forall fuel ro v st, dor (dump cs h fuel ro v st) (dump (unsorted cs) (inOrder h) fuel ro v st).
  Proof.
    intros SK. induction fuel as [|fuel IH]; intros ro v st; [apply dor_refl|]. rewrite !dump_step. unfold step.
    assert (EH : heading1 decimal method (unsorted cs) (inOrder h) v st = heading1 decimal method cs h v st).
    { unfold heading1. replace (lengthText decimal (unsorted cs) (inOrder h) v) with (lengthText decimal cs h v); [reflexivity|]. unfold lengthText. replace (lengths (inOrder h) v) with (lengths h v); [reflexivity|].
      destruct v as [? []| | | |? ? []| |? []|]; cbn [lengths]; try reflexivity. unfold lenZ. cbn [inOrder entries]. destruct (srt (keyLess (entries h z)) (entries h z)) as [P _]. rewrite (Permutation_length P). reflexivity. }
    rewrite EH. change (handleMethods method (unsorted cs) v) with (handleMethods method cs v). cbn [unsorted DisableMethods].
    destruct v as [ty k|ty p|ty w|ty l|ty c s|ty c b|ty m|ty fs]; try apply dor_refl.
    - unfold dumpPtr. cbv zeta. change (indent (unsorted cs) st) with (indent cs st). rewrite (chase_cells h (inOrder h) _ (fun _ => eq_refl)). destruct (chase h fuel _ _ _ _ _) as [c|]; [|apply dor_refl].
      destruct (cNil c); [apply dor_refl|]. destruct (cCycle c); [apply dor_refl|]. apply dor_bind; [apply IH|intros; apply dor_refl].
    - destruct (snd _); [apply dor_refl|]. apply braces_dor. apply sliceLoop_dor, IH.
    - destruct (snd _); [apply dor_refl|]. destruct s as [r|]; [|apply dor_refl]. apply braces_dor. apply sliceLoop_dor, IH.
    - destruct (snd _); [apply dor_refl|]. destruct m as [r|]; [|apply dor_refl]. apply braces_dor. intros st0. rewrite SK. cbn [unsorted SortKeys inOrder entries].
      unfold sortValues. destruct (entries h r) as [|[k x] l] eqn:E.
      + destruct (srt (keyLess []) []) as [P _]. apply Permutation_sym, Permutation_nil in P. rewrite P. apply dor_refl.
      + destruct (ro && _); [left; reflexivity|]. apply mapLoop_dor, IH.
    - destruct (snd _); [apply dor_refl|]. apply braces_dor. apply structLoop_dor. exact IH.
  Qed.
End Sorted.

(** ** Addresses *)
Section Moved.
  Variable rho : Z -> Z.
  Hypothesis inj : forall a b, rho a = rho b -> a = b.
  Notation mv := (moved rho).
  Definition movedPtrs (m : ptrs) : ptrs := map (fun x => (rho (fst x), snd x)) m.
  Definition movedSt (st : dst) : dst := {| dOut := dOut st; dDepth := dDepth st; dPtrs := movedPtrs (dPtrs st); dIgnT := dIgnT st; dIgnI := dIgnI st |}.
  Definition movedRes (r : dres) : dres := match r with DEnd st => DEnd (movedSt st) | r => r end.
  Definition movedChased (c : chased) : chased :=
    {| cVe := mv (cVe c); cNil := cNil c; cCycle := cCycle c; cInd := cInd c; cChain := map rho (cChain c); cPtrs := movedPtrs (cPtrs c) |}.
  Lemma rho_eqb a b : (rho a =? rho b) = (a =? b).
  Proof. destruct (a =? b) eqn:E; [apply Z.eqb_eq in E; subst; apply Z.eqb_refl|]. apply Z.eqb_neq in E. apply Z.eqb_neq. intros X. apply E, inj, X. Qed.
  Lemma above_moved d a m : above d (rho a) (movedPtrs m) = above d a m.
  Proof. unfold above, movedPtrs. induction m as [|x m IH]; [reflexivity|]. cbn [map existsb fst snd]. rewrite rho_eqb, IH. reflexivity. Qed.
  Lemma forget_moved d m : forget d (movedPtrs m) = movedPtrs (forget d m).
  Proof. unfold forget, movedPtrs. induction m as [|x m IH]; [reflexivity|]. cbn [map filter fst snd]. rewrite IH. destruct (negb _); reflexivity. Qed.
  Lemma put_moved d a m : put d (rho a) (movedPtrs m) = movedPtrs (put d a m).
  Proof. unfold put. cbn [movedPtrs map fst snd]. f_equal. unfold movedPtrs. induction m as [|x m IH]; [reflexivity|]. cbn [map filter fst snd]. rewrite rho_eqb, IH. destruct (negb _); reflexivity. Qed.
  Lemma chase_moved h d : forall fuel m v i l, chase (movedHeap rho h) fuel d (movedPtrs m) (mv v) i (map rho l) = option_map movedChased (chase h fuel d m v i l).
  Proof.
    induction fuel as [|fuel IH]; intros m v i l; [reflexivity|]. cbn [chase]. destruct v as [ty k|ty [[a x]|]|ty [w|]|ty l'|ty k s|ty k b|ty x|ty fs]; try reflexivity. cbn [moved movedHeap cell].
    rewrite above_moved. change (map rho l ++ [rho a]) with (map rho l ++ map rho [a]). rewrite <- map_app. destruct (above d a m); [reflexivity|]. rewrite put_moved.
    change {| cell := _; elems := _; entries := _ |} with (movedHeap rho h).
    destruct (cell h x) as [ty' k|ty' [[a' x']|]|ty' [w|]|ty' l'|ty' k s|ty' k b|ty' x'|ty' fs] eqn:C; cbn [moved];
      first [reflexivity|rewrite <- IH; reflexivity].
  Qed.
  Lemma typeText_moved v : typeText (mv v) = typeText v.
  Proof. destruct v as [ty k|ty [[a x]|]|ty [w|]|ty l|ty k s|ty k b|ty x|ty fs]; reflexivity. Qed.
  Lemma unpack_moved v : unpackValue (mv v) = mv (unpackValue v).
  Proof. destruct v as [ty k|ty [[a x]|]|ty [w|]|ty l|ty k s|ty k b|ty x|ty fs]; reflexivity. Qed.
  Lemma lengths_moved h v : lengths (movedHeap rho h) (mv v) = lengths h v.
  Proof. destruct v as [ty k|ty [[a x]|]|ty [w|]|ty l|ty k [s|]|ty k b|ty [x|]|ty fs]; cbn [moved lengths movedHeap elems entries]; try reflexivity; unfold lenZ; rewrite map_length; reflexivity. Qed.
  Lemma moved_sameKind a : forall b, sameKind a b -> mv a = a.
  Proof.
    induction a as [ty l IH|v Hv] using arr_ind; intros b K; [|inversion K; subst; try reflexivity; exfalso; eapply Hv; reflexivity].
    inversion K as [| | | | | |t l1 l2 KS]; subst. cbn [moved]. f_equal. clear K. revert IH. induction KS as [|x y l l2 K1 K2 IH2]; intros IH; [reflexivity|]. inversion IH; subst. cbn [map]. f_equal; eauto.
  Qed.
  Lemma moved_plain l : plainKeys l -> forall e, In e l -> mv (fst e) = fst e.
  Proof. intros [P|P] e I; [exact (moved_sameKind _ _ (P e e I I))|]. pose proof (P e e I I) as K. destruct (fst e); inversion K; reflexivity. Qed.
  Lemma moved_keys l : plainKeys l -> map (fun e => mv (fst e)) l = map fst l.
  Proof. intros P. apply map_ext_in. intros e I. apply (moved_plain l P e I). Qed.

  Variable decimal : Z -> bytes.
  Variable quote : bytes -> bytes.
  Variable hexDump : bytes -> bytes.
  Variable method : sval -> option mcall.
  Variable valueEq : sval -> sval -> bool.
  Variable spewKey : sval -> bytes.
  Variable sortBy : (entry -> entry -> bool) -> list entry -> list entry.
  Variable cs : config.
  Hypothesis methods : forall v, method (mv v) = method v.
  Hypothesis hidden : DisablePointerAddresses cs = true.
  Notation dump := (dump decimal quote hexDump method valueEq spewKey sortBy cs).
  Notation keyLess := (keyLess method valueEq spewKey cs).

  Lemma dw_moved t st : movedSt (dw t st) = dw t (movedSt st).
  Proof. reflexivity. Qed.
  Lemma indent_moved st : indent cs (movedSt st) = movedSt (indent cs st).
  Proof. unfold indent. cbn [movedSt dIgnI]. destruct (dIgnI st); reflexivity. Qed.
  Lemma bind_moved r f f' : (forall st, f' (movedSt st) = movedRes (f st)) -> dbind (movedRes r) f' = movedRes (dbind r f).
  Proof. intros E. destruct r; [apply E|reflexivity|reflexivity]. Qed.
  Definition follows (d d' : sval -> dst -> dres) : Prop := forall v st, d' (mv v) (movedSt st) = movedRes (d v st).
  Lemma sliceLoop_moved d d' : follows d d' -> forall l st, sliceLoop d' (map mv l) (movedSt st) = movedRes (sliceLoop d l st).
  Proof.
    intros E. induction l as [|v l IH]; intros st; [reflexivity|]. cbn [sliceLoop map]. rewrite unpack_moved, E. apply bind_moved. intros st'. destruct l; [reflexivity|].
    change (map mv (s :: l)) with (mv s :: map mv l) in *. cbv iota. rewrite <- dw_moved. apply IH.
  Qed.
  Lemma structLoop_moved d d' : (forall ro, follows (d ro) (d' ro)) -> forall ro l st,
    structLoop cs d' ro (map (fun f => (fst f, mv (snd f))) l) (movedSt st) = movedRes (structLoop cs d ro l st).
  Proof.
    intros E ro. induction l as [|[[n e] v] l IH]; intros st; [reflexivity|]. cbn [structLoop map fst snd]. rewrite unpack_moved, indent_moved, <- dw_moved.
    change (dSetI true (movedSt ?s)) with (movedSt (dSetI true s)). rewrite E. apply bind_moved. intros st'. destruct l; [reflexivity|]. cbn [map]. rewrite <- dw_moved. apply IH.
  Qed.
  Lemma mapLoop_moved d d' : follows d d' -> forall l st, mapLoop d' (map (movedEntry rho) l) (movedSt st) = movedRes (mapLoop d l st).
  Proof.
    intros E. induction l as [|[k v] l IH]; intros st; [reflexivity|]. cbn [mapLoop map movedEntry fst snd]. rewrite unpack_moved, E. apply bind_moved. intros st1.
    rewrite <- dw_moved. change (dSetI true (movedSt ?s)) with (movedSt (dSetI true s)). set (st2 := dSetI true _).
    assert (X : match option_map mv v with Some v => d' (unpackValue v) (movedSt st2) | None => DEnd (dw (bs "<invalid>") (movedSt st2)) end =
      movedRes (match v with Some v => d (unpackValue v) st2 | None => DEnd (dw (bs "<invalid>") st2) end)).
    { destruct v as [v|]; cbn [option_map]; [rewrite unpack_moved; apply E|reflexivity]. }
    rewrite X. apply bind_moved. intros st3. destruct l; [reflexivity|]. cbn [map]. rewrite <- dw_moved. apply IH.
  Qed.
  Lemma braces_moved b b' : (forall st, b' (movedSt st) = movedRes (b st)) -> forall st, braces cs b' (movedSt st) = movedRes (braces cs b st).
  Proof.
    intros E st. unfold braces. cbv zeta. rewrite <- dw_moved. change (dSetDepth (S (dDepth (movedSt ?s))) (movedSt ?s)) with (movedSt (dSetDepth (S (dDepth s)) s)).
    set (st1 := dSetDepth _ _). change (dDepth (movedSt st1)) with (dDepth st1).
    assert (X : (if negb (MaxDepth cs =? 0)%nat && (MaxDepth cs <? dDepth st1)%nat then DEnd (dw (bs "<max depth reached>" ++ [10]) (indent cs (movedSt st1))) else b' (movedSt st1)) =
      movedRes (if negb (MaxDepth cs =? 0)%nat && (MaxDepth cs <? dDepth st1)%nat then DEnd (dw (bs "<max depth reached>" ++ [10]) (indent cs st1)) else b st1)).
    { destruct (negb (MaxDepth cs =? 0)%nat && _); [rewrite indent_moved; reflexivity|apply E]. }
    rewrite X. apply bind_moved. intros st2. change (dSetDepth (pred (dDepth (movedSt st2))) (movedSt st2)) with (movedSt (dSetDepth (pred (dDepth st2)) st2)). rewrite indent_moved. reflexivity.
  Qed.
  Hypothesis eqKeys : forall a b, sameKind a b -> (valueEq a b = true <-> a = b).
  Hypothesis srt : sorts sortBy.
  Lemma handle_moved v : handleMethods method cs (mv v) = handleMethods method cs v.
  Proof. unfold handleMethods. rewrite methods. reflexivity. Qed.
  Lemma sort_moved ro l : plainKeys l -> NoDup (map fst l) ->
    sortValues method valueEq spewKey sortBy cs ro (map (movedEntry rho) l) = option_map (map (movedEntry rho)) (sortValues method valueEq spewKey sortBy cs ro l).
  Proof.
    intros P N. set (me := movedEntry rho).
    assert (MK : forall e, In e l -> fst (me e) = fst e) by (intros e I; exact (moved_plain l P e I)).
    assert (P' : plainKeys (map me l)).
    { destruct P as [P|P]; [left|right]; intros a b Ia Ib; apply in_map_iff in Ia, Ib; destruct Ia as (a' & <- & Ia), Ib as (b' & <- & Ib); rewrite !MK by assumption; auto. }
    assert (N' : NoDup (map fst (map me l))).
    { rewrite map_map. erewrite map_ext_in; [exact N|]. intros e I. apply MK, I. }
    assert (MAIN : sortBy (keyLess (map me l)) (map me l) = map me (sortBy (keyLess l) l)).
    { destruct (srt (keyLess (map me l)) (map me l)) as [P1 S1]. destruct (srt (keyLess l) l) as [P2 S2].
      pose proof (plain_orders valueEq eqKeys method spewKey cs _ P' (nodup_distinct _ N')) as O'. pose proof (plain_orders valueEq eqKeys method spewKey cs _ P (nodup_distinct _ N)) as O.
      assert (PM : Permutation (map me l) (map me (sortBy (keyLess l) l))) by (apply Permutation_map, Permutation_sym, P2).
      apply (sorted_unique (keyLess (map me l))).
      - eapply Permutation_trans; [exact P1|exact PM].
      - apply S1, O'.
      - specialize (S2 O). assert (I2 : forall e, In e (sortBy (keyLess l) l) -> In e l) by (intros e; apply Permutation_in, P2). revert S2 I2. generalize (sortBy (keyLess l) l). induction 1 as [|x l0 F S IH]; intros I2; [constructor|].
        cbn [map]. constructor; [|apply IH; intros; apply I2; right; assumption]. intros y Iy. apply in_map_iff in Iy. destruct Iy as (y' & <- & Iy).
        rewrite (plain_less valueEq method spewKey cs (map me l)) by (assumption || apply in_map, I2; right; exact Iy). rewrite !MK by (apply I2; (left; reflexivity) || (right; assumption)).
        rewrite <- (plain_less valueEq method spewKey cs l) by (assumption || (apply I2; right; exact Iy)). apply F, Iy.
      - eapply orders_perm; [apply Permutation_sym, P1|exact O']. }
    destruct l as [|[k x] l]; [reflexivity|]. unfold sortValues. cbn [map] in *. unfold me at 1. cbn [movedEntry fst snd].
    assert (Ek : mv k = k) by exact (MK (k, x) (or_introl eq_refl)). rewrite Ek. rewrite (plain_simple _ (k, x) P (or_introl eq_refl) : canSortSimply k = true).
    cbn [List.length]. rewrite map_length. destruct (ro && _); [reflexivity|]. cbn [option_map]. f_equal. exact MAIN.
  Qed.
  Lemma dump_moved h : (SortKeys cs = true -> forall r, plainKeys (entries h r) /\ NoDup (map fst (entries h r))) ->
    forall fuel ro, follows (dump h fuel ro) (dump (movedHeap rho h) fuel ro).
  Proof.
    intros G. induction fuel as [|fuel IH]; intros ro v st; [reflexivity|]. rewrite !dump_step. unfold step.
    assert (HM : (match mv v with SIface _ _ => ([], false) | _ => if negb (DisableMethods cs) then handleMethods method cs (mv v) else ([], false) end) =
      (match v with SIface _ _ => ([], false) | _ => if negb (DisableMethods cs) then handleMethods method cs v else ([], false) end)).
    { rewrite handle_moved. destruct v as [ty k|ty [[a x]|]|ty [w|]|ty l|ty k s|ty k b|ty x|ty fs]; reflexivity. }
    assert (EH : heading1 decimal method cs (movedHeap rho h) (mv v) (movedSt st) = movedSt (heading1 decimal method cs h v st)).
    { unfold heading1. rewrite HM, typeText_moved, indent_moved. unfold lengthText. rewrite lengths_moved. cbn [movedSt dIgnT]. destruct (negb (dIgnT st)); reflexivity. }
    destruct v as [ty k|ty p|ty w|ty l|ty c s|ty c b|ty m|ty fs].
    - cbn [moved] in *. rewrite EH. destruct (snd _); reflexivity.
    - assert (X : exists p', mv (SPtr ty p) = SPtr ty p') by (destruct p as [[a x]|]; eexists; reflexivity). destruct X as [p' X]. rewrite X. cbv iota. rewrite <- X. clear X p'.
      unfold dumpPtr. cbv zeta. rewrite indent_moved. cbn [movedSt dDepth dPtrs]. rewrite forget_moved.
      change (@nil Z) with (map rho []) at 1. rewrite chase_moved. destruct (chase h fuel _ _ _ _ _) as [c|]; [|reflexivity]. cbn [option_map movedChased cNil cCycle cVe cInd cChain cPtrs]. rewrite typeText_moved, hidden. cbn [negb andb].
      match goal with |- dbind ?a _ = movedRes (dbind ?b _) => replace a with (movedRes b) end; [apply bind_moved; reflexivity|].
      destruct (cNil c); [reflexivity|]. destruct (cCycle c); [reflexivity|]. rewrite <- (IH ro (cVe c) _). reflexivity.
    - destruct w as [w|]; cbn [moved] in *; rewrite EH; reflexivity.
    - cbn [moved] in *. rewrite EH, HM. destruct (snd _); [reflexivity|]. apply braces_moved. apply sliceLoop_moved, IH.
    - cbn [moved] in *. rewrite EH. destruct (snd _); [reflexivity|]. destruct s as [r|]; [|reflexivity]. apply braces_moved. cbn [movedHeap elems]. apply sliceLoop_moved, IH.
    - cbn [moved] in *. rewrite EH. destruct (snd _); [reflexivity|]. apply braces_moved. reflexivity.
    - cbn [moved] in *. rewrite EH. destruct (snd _); [reflexivity|]. destruct m as [r|]; [|reflexivity]. apply braces_moved. intros st0. cbn [movedHeap entries]. destruct (SortKeys cs) eqn:SK.
      + destruct (G eq_refl r) as [P N]. rewrite sort_moved by assumption. destruct (sortValues _ _ _ _ _ _ _); cbn [option_map]; [|reflexivity]. apply mapLoop_moved, IH.
      + apply mapLoop_moved, IH.
    - cbn [moved] in *. rewrite EH, HM. destruct (snd _); [reflexivity|]. apply braces_moved. apply structLoop_moved. exact IH.
  Qed.
End Moved.
