(** Proofs about reflect2's slices. *)
From Verif Require Import Base SliceModel SliceSpec.
Open Scope Z_scope.
Open Scope list_scope.

Lemma int64_id : forall z, - 2 ^ 63 <= z < 2 ^ 63 -> int64 z = z.
Proof. intros z H. unfold int64. rewrite Z.mod_small; lia. Qed.

(** * The capacity *)
Definition nextCap (cap : Z) : Z := if cap <? 1024 then int64 (cap + cap) else int64 (cap + Z.quot cap 4).
Lemma capLoop_S : forall fuel cap e, capLoop (S fuel) cap e = if cap <? e then capLoop fuel (nextCap cap) e else Some cap.
Proof. reflexivity. Qed.
Lemma nextCap_val : forall cap, 1 <= cap < 2 ^ 62 -> nextCap cap = if cap <? 1024 then 2 * cap else cap + cap / 4.
Proof.
  intros cap H. unfold nextCap. pose proof (Z.div_mod cap 4 ltac:(lia)). pose proof (Z.mod_pos_bound cap 4 ltac:(lia)).
  destruct (cap <? 1024); [rewrite int64_id by lia; lia|]. rewrite Z.quot_div_nonneg by lia. rewrite int64_id by lia. reflexivity.
Qed.
Lemma nextCap_bounds : forall cap, 1 <= cap < 2 ^ 62 -> cap < nextCap cap <= 2 * cap \/ 1024 <= cap /\ cap < nextCap cap <= 2 * cap.
Proof.
  intros cap H. rewrite nextCap_val by exact H. pose proof (Z.div_mod cap 4 ltac:(lia)). pose proof (Z.mod_pos_bound cap 4 ltac:(lia)).
  destruct (Z.ltb_spec cap 1024); lia.
Qed.
Lemma nextCap_grows : forall cap, 1 <= cap < 2 ^ 62 -> cap < nextCap cap <= 2 * cap /\ (cap < 1024 -> nextCap cap = 2 * cap) /\ (1024 <= cap -> 5 * cap - 3 <= 4 * nextCap cap).
Proof.
  intros cap H. rewrite nextCap_val by exact H. pose proof (Z.div_mod cap 4 ltac:(lia)). pose proof (Z.mod_pos_bound cap 4 ltac:(lia)).
  destruct (Z.ltb_spec cap 1024); lia.
Qed.
Lemma capLoop_ok : forall k cap e fuel, (k <= 62)%nat -> 2 ^ (62 - Z.of_nat k) <= cap -> e <= 2 ^ 62 -> (4 * k + 1 <= fuel)%nat ->
  exists c, capLoop fuel cap e = Some c /\ e <= c /\ (e <= cap -> c = cap) /\ (cap < e -> c < 2 * e).
Proof.
  induction k as [|k IH]; intros cap e fuel Hk Hc He Hf.
  - destruct fuel as [|fuel]; [lia|]. rewrite capLoop_S. change (2 ^ (62 - Z.of_nat 0)) with (2 ^ 62) in Hc.
    replace (cap <? e) with false by lia. exists cap. repeat split; lia.
  - assert (P1 : 1 <= 2 ^ (62 - Z.of_nat (S k))). { change 1 with (2 ^ 0). apply Z.pow_le_mono_r; lia. }
    assert (P2 : 2 ^ (62 - Z.of_nat k) = 2 * 2 ^ (62 - Z.of_nat (S k))).
    { replace (62 - Z.of_nat k) with (Z.succ (62 - Z.of_nat (S k))) by lia. apply Z.pow_succ_r. lia. }
    destruct fuel as [|fuel]; [lia|]. rewrite capLoop_S. destruct (Z.ltb_spec cap e) as [L1|L1]; [|exists cap; repeat split; lia].
    destruct (nextCap_grows cap ltac:(lia)) as (G1 & D1 & E1). set (c1 := nextCap cap) in *.
    destruct fuel as [|fuel]; [lia|]. rewrite capLoop_S. destruct (Z.ltb_spec c1 e) as [L2|L2]; [|exists c1; repeat split; lia].
    destruct (nextCap_grows c1 ltac:(lia)) as (G2 & D2 & E2). set (c2 := nextCap c1) in *.
    destruct fuel as [|fuel]; [lia|]. rewrite capLoop_S. destruct (Z.ltb_spec c2 e) as [L3|L3]; [|exists c2; repeat split; lia].
    destruct (nextCap_grows c2 ltac:(lia)) as (G3 & D3 & E3). set (c3 := nextCap c2) in *.
    destruct fuel as [|fuel]; [lia|]. rewrite capLoop_S. destruct (Z.ltb_spec c3 e) as [L4|L4]; [|exists c3; repeat split; lia].
    destruct (nextCap_grows c3 ltac:(lia)) as (G4 & D4 & E4). set (c4 := nextCap c3) in *.
    destruct (IH c4 e fuel ltac:(lia)) as (c & C1 & C2 & C3 & C4); [|exact He|lia|].
    + destruct (Z.lt_ge_cases cap 1024); lia.
    + exists c. split; [exact C1|]. split; [exact C2|]. split; [lia|]. intros _. destruct (Z.lt_ge_cases c4 e); [now apply C4|]. rewrite C3 by assumption. lia.
Qed.
Lemma calcNewCap_ok : forall cap e fuel, 0 <= cap < e -> e <= 2 ^ 62 -> (300 <= fuel)%nat ->
  exists c, calcNewCap fuel cap e = Some c /\ e <= c < 2 * e.
Proof.
  intros cap e fuel Hc He Hf. unfold calcNewCap. destruct (Z.eqb_spec cap 0) as [->|N]; [exists e; split; [reflexivity|lia]|].
  destruct (capLoop_ok 62 cap e fuel) as (c & C1 & C2 & _ & C4); [lia|change (2 ^ (62 - Z.of_nat 62)) with 1; lia|exact He|lia|].
  exists c. split; [exact C1|]. split; [exact C2|]. apply C4. lia.
Qed.
(** From 0 it never comes back *)
Lemma capLoop_zero : forall fuel e, 0 < e -> capLoop fuel 0 e = None.
Proof.
  induction fuel as [|fuel IH]; intros e H; [reflexivity|]. rewrite capLoop_S. replace (0 <? e) with true by lia. change (nextCap 0) with 0. now apply IH.
Qed.
Fixpoint iterate (n : nat) (cap : Z) : Z := match n with O => cap | S n => iterate n (nextCap cap) end.
(** All of the first n capacities are below e *)
Fixpoint below (n : nat) (cap e : Z) : bool := match n with O => true | S n => (cap <? e) && below n (nextCap cap) e end.
Lemma capLoop_below : forall n cap e, below n cap e = true -> 0 < e -> iterate n cap = 0 -> forall fuel, capLoop fuel cap e = None.
Proof.
  induction n as [|n IH]; intros cap e B H I fuel; cbn [below iterate] in *.
  - subst cap. now apply capLoop_zero.
  - apply andb_prop in B. destruct B as [B1 B2]. destruct fuel as [|fuel]; [reflexivity|]. rewrite capLoop_S, B1. now apply IH.
Qed.

Section Memory.
  Variable A : Type.
  Variable zero : A.
  Variable fits : Z -> bool.
  Variable reflectCap : Z -> Z -> Z.
  Local Notation memory := (memory A).
  Local Notation load := (load A).
  Local Notation store := (store A).
  Local Notation item := (item A).
  Local Notation wf := (wf A).
  Local Notation holds := (holds A).
  Local Notation keeps := (keeps A).

  (** * Memory *)
  Lemma nthZ_neg : forall T (l : list T) i, i < 0 -> nthZ l i = None.
  Proof. intros. unfold nthZ. now replace (i <? 0) with true by lia. Qed.
  Lemma nthZ_some : forall T (l : list T) i, 0 <= i < lenZ l -> exists x, nthZ l i = Some x.
  Proof.
    intros T l i H. unfold nthZ, lenZ in *. replace (i <? 0) with false by lia. destruct (nth_error l (Z.to_nat i)) as [x|] eqn:E; [eauto|].
    apply nth_error_None in E. lia.
  Qed.
  Lemma nthZ_range : forall T (l : list T) i x, nthZ l i = Some x -> 0 <= i < lenZ l.
  Proof.
    intros T l i x H. unfold nthZ, lenZ in *. destruct (Z.ltb_spec i 0); [discriminate|]. assert (Z.to_nat i < List.length l)%nat by (apply nth_error_Some; congruence). lia.
  Qed.
  Lemma nthZ_app : forall T (l r : list T) i, nthZ (l ++ r) i = if i <? lenZ l then nthZ l i else nthZ r (i - lenZ l).
  Proof.
    intros T l r i. unfold nthZ, lenZ. destruct (Z.ltb_spec i (Z.of_nat (List.length l))).
    - destruct (Z.ltb_spec i 0); [reflexivity|]. apply nth_error_app1. lia.
    - destruct (Z.ltb_spec i 0); [lia|]. replace (i - Z.of_nat (List.length l) <? 0) with false by lia. rewrite nth_error_app2 by lia. f_equal. lia.
  Qed.
  Lemma nthZ_zeros : forall n i, 0 <= i < n -> nthZ (zeros A zero n) i = Some zero.
  Proof.
    intros n i H. unfold nthZ, zeros. replace (i <? 0) with false by lia. apply nth_error_repeat. lia.
  Qed.
  Lemma lenZ_zeros : forall n, 0 <= n -> lenZ (zeros A zero n) = n.
  Proof. intros. unfold lenZ, zeros. rewrite repeat_length. lia. Qed.
  Lemma nth_update : forall T (l : list T) n x k, nth_error (update l n x) k = if Nat.eqb k n then (match nth_error l k with Some _ => Some x | None => None end) else nth_error l k.
  Proof.
    induction l as [|y l IH]; intros n x k; cbn [update].
    - destruct k; cbn [nth_error]; match goal with |- context [Nat.eqb ?a ?b] => destruct (Nat.eqb a b) end; reflexivity.
    - destruct n; destruct k; cbn [nth_error Nat.eqb]; try reflexivity. now rewrite IH.
  Qed.
  Lemma update_length : forall T (l : list T) n x, List.length (update l n x) = List.length l.
  Proof. induction l as [|y l IH]; intros [|n] x; cbn [update List.length]; try reflexivity. now rewrite IH. Qed.
  Definition pdec (p q : pointer) : {p = q} + {p <> q}.
  Proof. destruct p as [a i], q as [b j]. destruct (Nat.eq_dec a b) as [->|N]; [destruct (Z.eq_dec i j) as [->|N]|]; [left; reflexivity|right; congruence|right; congruence]. Defined.
  Lemma load_neg : forall m a i, i < 0 -> load m (a, i) = None.
  Proof. intros m a i H. unfold SliceModel.load. cbn [fst snd]. destruct (nth_error m a) as [l|]; [cbn [obind]; now apply nthZ_neg|reflexivity]. Qed.
  Lemma load_store : forall m p x m', store m p x = Some m' -> forall q, load m' q = if pdec q p then Some x else load m q.
  Proof.
    intros m [a i] x m' H [b j]. unfold SliceModel.store, SliceModel.load in *. cbn [fst snd] in *. destruct (nth_error m a) as [l|] eqn:Ea; [|discriminate].
    cbn [obind] in H. destruct (nthZ l i) as [y|] eqn:Ey; [|discriminate]. cbn [obind] in H. injection H as <-.
    pose proof (nthZ_range _ _ _ _ Ey) as R. rewrite nth_update. destruct (Nat.eqb_spec b a) as [->|N].
    - rewrite Ea. cbn [obind]. unfold nthZ. destruct (Z.ltb_spec j 0) as [Hj|Hj].
      + destruct (pdec (a, j) (a, i)) as [E|E]; [injection E as ->; lia|reflexivity].
      + rewrite nth_update. destruct (pdec (a, j) (a, i)) as [E|E].
        * injection E as ->. rewrite Nat.eqb_refl. unfold nthZ in Ey. replace (i <? 0) with false in Ey by lia. now rewrite Ey.
        * destruct (Nat.eqb_spec (Z.to_nat j) (Z.to_nat i)) as [E'|E']; [|reflexivity]. exfalso. apply E. f_equal. lia.
    - destruct (pdec (b, j) (a, i)) as [E|E]; [congruence|reflexivity].
  Qed.
  Lemma store_some : forall m p x, load m p <> None -> exists m', store m p x = Some m'.
  Proof.
    intros m p x H. unfold SliceModel.store. destruct (nth_error m (fst p)) as [l|] eqn:E; [|unfold SliceModel.load in H; rewrite E in H; now destruct H].
    cbn [obind]. destruct (load m p); [|now destruct H]. cbn [obind]. eauto.
  Qed.
  Lemma store_length : forall m p x m', store m p x = Some m' -> List.length m' = List.length m.
  Proof.
    intros m p x m' H. unfold SliceModel.store in H. destruct (nth_error m (fst p)); [|discriminate]. cbn [obind] in H. destruct (load m p); [|discriminate].
    cbn [obind] in H. injection H as <-. apply update_length.
  Qed.
  Lemma load_new : forall m r a i, load (m ++ [r]) (a, i) = if Nat.eqb a (List.length m) then nthZ r i else load m (a, i).
  Proof.
    intros m r a i. unfold SliceModel.load. cbn [fst snd]. destruct (Nat.eqb_spec a (List.length m)) as [->|N].
    - rewrite nth_error_app2, Nat.sub_diag by lia. reflexivity.
    - destruct (Nat.lt_ge_cases a (List.length m)); [now rewrite nth_error_app1|].
      rewrite (proj2 (nth_error_None m a)) by lia. rewrite (proj2 (nth_error_None (m ++ [r]) a)); [reflexivity|]. rewrite app_length. cbn. lia.
  Qed.
  Lemma load_bound : forall m a i y, load m (a, i) = Some y -> (a < List.length m)%nat.
  Proof. intros m a i y H. unfold SliceModel.load in H. cbn [fst snd] in H. apply nth_error_Some. intro E. rewrite E in H. discriminate. Qed.
  Lemma copy_ok : forall n m d i a j, d <> a -> (forall k, 0 <= k < Z.of_nat n -> load m (d, i + k) <> None) -> (forall k, 0 <= k < Z.of_nat n -> load m (a, j + k) <> None) ->
    exists m', copyElems A m (d, i) (a, j) n = Some m' /\ List.length m' = List.length m /\
      forall b k, load m' (b, k) = if Nat.eqb b d && (i <=? k) && (k <? i + Z.of_nat n) then load m (a, j + (k - i)) else load m (b, k).
  Proof.
    induction n as [|n IH]; intros m d i a j N D Sr.
    - exists m. split; [reflexivity|]. split; [reflexivity|]. intros b k. destruct (Nat.eqb b d); cbn [andb]; [|reflexivity].
      destruct (Z.leb_spec i k); cbn [andb]; [|reflexivity]. match goal with |- context [k <? ?x] => destruct (Z.ltb_spec k x); [lia|reflexivity] end.
    - cbn [copyElems fst snd]. destruct (load m (a, j)) as [x|] eqn:Lx; [|exfalso; apply (Sr 0); [lia|now rewrite Z.add_0_r]]. cbn [obind].
      destruct (store_some m (d, i) x) as (m1 & S1); [rewrite <- (Z.add_0_r i); apply D; lia|]. rewrite S1. cbn [obind]. pose proof (load_store _ _ _ _ S1) as L1.
      destruct (IH m1 d (i + 1) a (j + 1) N) as (m2 & C & Len2 & L2).
      + intros k Hk. rewrite L1. destruct (pdec _ _); [discriminate|]. rewrite <- Z.add_assoc. apply D. lia.
      + intros k Hk. rewrite L1. destruct (pdec _ _); [discriminate|]. rewrite <- Z.add_assoc. apply Sr. lia.
      + exists m2. split; [exact C|]. split; [rewrite Len2; eapply store_length; eassumption|]. intros b k. rewrite L2.
        destruct (Nat.eqb_spec b d) as [->|Nb]; cbn [andb].
        * destruct (Z.leb_spec (i + 1) k) as [K1|K1]; cbn [andb].
          -- replace (i <=? k) with true by lia. cbn [andb]. replace (i + 1 + Z.of_nat n) with (i + Z.of_nat (S n)) by lia.
             rewrite !L1. destruct (k <? i + Z.of_nat (S n)).
             ++ destruct (pdec (a, j + 1 + (k - (i + 1))) (d, i)); [congruence|]. f_equal. f_equal. lia.
             ++ destruct (pdec (d, k) (d, i)) as [E|E]; [injection E as ->; lia|reflexivity].
          -- rewrite L1. destruct (pdec (d, k) (d, i)) as [E|E].
             ++ injection E as ->. replace (i <=? i) with true by lia. replace (i <? i + Z.of_nat (S n)) with true by (symmetry; apply Z.ltb_lt; lia). cbn [andb]. rewrite Z.sub_diag, Z.add_0_r. now symmetry.
             ++ replace (i <=? k) with false; [reflexivity|]. symmetry. apply Z.leb_gt. assert (k <> i) by congruence. lia.
        * rewrite L1. destruct (pdec (b, k) (d, i)); [congruence|reflexivity].
  Qed.

  (** * Items of slices *)
  Lemma item_some : forall h a k m i, Data h = Some (a, k) -> item m h i = load m (a, k + i).
  Proof. intros h a k m i E. unfold SliceSpec.item, place. now rewrite E. Qed.
  Lemma keeps_refl : forall m e, keeps m m e.
  Proof. intros m e q y L _. exact L. Qed.
  Lemma keeps_trans : forall m m1 m2 e, keeps m m1 e -> keeps m1 m2 e -> keeps m m2 e.
  Proof. intros m m1 m2 e K1 K2 q y L N. apply K2; [|exact N]. now apply K1. Qed.
  Lemma keeps_weak : forall m m' e, keeps m m' None -> keeps m m' e.
  Proof. intros m m' e K q y L _. now apply K. Qed.
  Lemma keeps_new : forall m r, keeps m (m ++ [r]) None.
  Proof.
    intros m r [a i] y L _. rewrite load_new. pose proof (load_bound _ _ _ _ L). destruct (Nat.eqb_spec a (List.length m)); [lia|exact L].
  Qed.
  Lemma keeps_store : forall m p x m', store m p x = Some m' -> keeps m m' (Some p).
  Proof. intros m p x m' E q y L N. rewrite (load_store _ _ _ _ E). destruct (pdec q p); [congruence|exact L]. Qed.
  Lemma load_kept : forall m p x m', store m p x = Some m' -> forall q, load m q <> None -> load m' q <> None.
  Proof. intros m p x m' E q L. rewrite (load_store _ _ _ _ E). destruct (pdec q p); [discriminate|exact L]. Qed.
  (** What was readable stays so *)
  Definition more (m m' : memory) : Prop := forall q, load m q <> None -> load m' q <> None.
  Lemma more_refl : forall m, more m m.
  Proof. intros m q H. exact H. Qed.
  Lemma more_trans : forall m m1 m2, more m m1 -> more m1 m2 -> more m m2.
  Proof. intros m m1 m2 H K q L. apply K. now apply H. Qed.
  Lemma keeps_more : forall m m', keeps m m' None -> more m m'.
  Proof. intros m m' K q L. destruct (load m q) as [y|] eqn:E; [|now destruct L]. rewrite (K q y E); discriminate. Qed.
  Lemma wf_more : forall m m' h, more m m' -> wf m h -> wf m' h.
  Proof.
    intros m m' h M [R I]. split; [exact R|]. intros i Hi. specialize (I i Hi). unfold SliceSpec.item in *. destruct (place h i); [|exact I]. now apply M.
  Qed.
  Lemma wf_nil : forall m, wf m nilSlice.
  Proof. intro m. split; [cbn; lia|]. cbn. intros i H. lia. Qed.
  Lemma holds_nil : forall m, holds m nilSlice [].
  Proof. intro m. split; [reflexivity|]. cbn. intros i H. lia. Qed.
  Lemma wf_data : forall m h, wf m h -> 0 < Cap h -> exists a k, Data h = Some (a, k) /\ (a < List.length m)%nat.
  Proof.
    intros m h [R I] C. specialize (I 0 ltac:(lia)). unfold SliceSpec.item, place in I. destruct (Data h) as [[a k]|]; [|now destruct I]. exists a, k. split; [reflexivity|].
    destruct (load m (a, k + 0)) as [y|] eqn:E; [|now destruct I]. eapply load_bound. exact E.
  Qed.

  (** * The operations *)
  Lemma make_cases : forall m n c, UnsafeMakeSlice A zero fits m n c =
    if (c <? 0) || negb (fits c) then Panics else Done (m ++ [zeros A zero c], mkH (Some (List.length m, 0)) n c).
  Proof. intros m n c. unfold UnsafeMakeSlice, unsafe_NewArray. destruct ((c <? 0) || negb (fits c)); reflexivity. Qed.
  Lemma item_new : forall m n c i, 0 <= i < c -> item (m ++ [zeros A zero c]) (mkH (Some (List.length m, 0)) n c) i = Some zero.
  Proof. intros m n c i H. rewrite (item_some _ (List.length m) 0) by reflexivity. rewrite load_new, Nat.eqb_refl. apply nthZ_zeros. lia. Qed.
  Lemma make_wf : forall m n c, 0 <= n <= c -> wf (m ++ [zeros A zero c]) (mkH (Some (List.length m, 0)) n c).
  Proof. intros m n c H. split; [exact H|]. cbn [Cap]. intros i Hi. rewrite item_new by lia. discriminate. Qed.

  (** A new array of capacity c with the elements of h *)
  Lemma recopy : forall m h c, wf m h -> Len h <= c -> exists m2, typedslicecopy A (m ++ [zeros A zero c]) (mkH (Some (List.length m, 0)) (Len h) c) h = Done m2 /\
    List.length m2 = S (List.length m) /\ keeps m m2 None /\
    forall n i, 0 <= i < c -> item m2 (mkH (Some (List.length m, 0)) n c) i = if i <? Len h then item m h i else Some zero.
  Proof.
    intros m h c W Hc. assert (R := proj1 W). unfold typedslicecopy. cbn [Len Data]. rewrite Z.min_id. destruct (Z.eqb_spec (Len h) 0) as [E0|E0].
    - exists (m ++ [zeros A zero c]). split; [reflexivity|]. split; [rewrite app_length; cbn; lia|]. split; [apply keeps_new|].
      intros n i Hi. rewrite item_new by lia. now replace (i <? Len h) with false by lia.
    - replace (Len h <? 0) with false by lia. destruct (wf_data m h W ltac:(lia)) as (a & k & Da & La). rewrite Da.
      destruct (copy_ok (Z.to_nat (Len h)) (m ++ [zeros A zero c]) (List.length m) 0 a k) as (m2 & C & L2 & P).
      + lia.
      + intros j Hj. rewrite load_new, Nat.eqb_refl, nthZ_zeros by lia. discriminate.
      + intros j Hj. rewrite load_new. destruct (Nat.eqb_spec a (List.length m)); [lia|]. rewrite <- (item_some h) by exact Da. apply W. lia.
      + exists m2. rewrite C. cbn [access]. split; [reflexivity|]. split; [rewrite L2, app_length; cbn; lia|]. split.
        * intros [b j] y Ly _. pose proof (load_bound _ _ _ _ Ly). rewrite P. destruct (Nat.eqb_spec b (List.length m)); [lia|]. cbn [andb]. now apply (keeps_new m (zeros A zero c)).
        * intros n i Hi. rewrite (item_some _ (List.length m) 0) by reflexivity. rewrite Z.add_0_l, P, Nat.eqb_refl. replace (0 <=? i) with true by lia. cbn [andb].
          rewrite Z.add_0_l, Z2Nat.id by lia. destruct (i <? Len h).
          -- rewrite Z.sub_0_r, load_new. destruct (Nat.eqb_spec a (List.length m)); [lia|]. now rewrite (item_some h a k) by exact Da.
          -- rewrite load_new, Nat.eqb_refl. apply nthZ_zeros. lia.
  Qed.
  Lemma grow_ok : forall fuel m h n, (300 <= fuel)%nat -> wf m h -> 0 <= n <= 2 ^ 62 ->
    match UnsafeGrow A zero fits fuel m h n with
    | Done (m', h') => wf m' h' /\ Len h' = n /\ keeps m m' None /\
      (n <= Cap h -> m' = m /\ Data h' = Data h /\ Cap h' = Cap h) /\
      (Cap h < n -> Data h' = Some (List.length m, 0) /\ n <= Cap h' < 2 * n /\ List.length m' = S (List.length m) /\
        forall i, 0 <= i < Cap h' -> item m' h' i = if i <? Len h then item m h i else Some zero)
    | Panics => Cap h < n /\ exists c, n <= c < 2 * n /\ fits c = false
    | _ => False
    end.
  Proof.
    intros fuel m h n Hf W Hn. assert (R := proj1 W). unfold UnsafeGrow. destruct (Z.leb_spec n (Cap h)) as [L|L].
    - split; [|split; [reflexivity|split; [apply keeps_refl|split; [auto|lia]]]]. split; [cbn [Len Cap]; lia|]. intros i Hi. apply (proj2 W). exact Hi.
    - destruct (calcNewCap_ok (Cap h) n fuel ltac:(lia) ltac:(lia) Hf) as (c & C & Hc). rewrite C, make_cases. replace (c <? 0) with false by lia. cbn [orb].
      destruct (fits c) eqn:F; cbn [negb bind]; [|split; [exact L|exists c; split; [lia|exact F]]].
      destruct (recopy m h c W ltac:(lia)) as (m2 & E & L2 & K & P). rewrite E. cbn [bind Data Cap Len]. split.
      + split; [cbn [Len Cap]; lia|]. cbn [Cap]. intros i Hi. rewrite P by exact Hi. destruct (Z.ltb_spec i (Len h)); [apply (proj2 W); lia|discriminate].
      + split; [reflexivity|]. split; [exact K|]. split; [lia|]. intros _. split; [reflexivity|]. split; [exact Hc|]. split; [exact L2|]. intros i Hi. now apply P.
  Qed.
  Lemma set_place : forall m h i x, UnsafeSetIndex A m h i x = access (let? p := place h i in store m p x).
  Proof. intros m h i x. unfold UnsafeSetIndex, UnsafeGetIndex, place. destruct (Data h) as [[a k]|]; reflexivity. Qed.
  Lemma get_place : forall h i, UnsafeGetIndex h i = place h i.
  Proof. intros h i. unfold UnsafeGetIndex, place. destruct (Data h) as [[a k]|]; reflexivity. Qed.
  Lemma set_ok : forall m h i x, item m h i <> None -> exists m', UnsafeSetIndex A m h i x = Done m' /\ more m m' /\ keeps m m' (place h i) /\ List.length m' = List.length m /\
    (forall p, place h i = Some p -> forall q, load m' q = if pdec q p then Some x else load m q).
  Proof.
    intros m h i x I. rewrite set_place. unfold SliceSpec.item in I. destruct (place h i) as [p|] eqn:P; [|now destruct I]. cbn [obind].
    destruct (store_some m p x I) as (m' & E). rewrite E. exists m'. cbn [access]. split; [reflexivity|]. split; [intros q; eapply load_kept; exact E|].
    split; [eapply keeps_store; exact E|]. split; [eapply store_length; exact E|]. intros p' [= <-]. apply (load_store _ _ _ _ E).
  Qed.
  Lemma place_inj : forall h i j p, place h i = Some p -> place h j = Some p -> i = j.
  Proof. intros h i j p H K. unfold place in *. destruct (Data h) as [[a k]|]; [|discriminate]. injection H as <-. injection K as E. lia. Qed.
  Lemma set_items : forall m h i x m', UnsafeSetIndex A m h i x = Done m' -> forall j, item m' h j = if j =? i then Some x else item m h j.
  Proof.
    intros m h i x m' E j. rewrite set_place in E. unfold SliceSpec.item. destruct (place h i) as [p|] eqn:P; [|discriminate]. cbn [obind] in E.
    destruct (store m p x) as [m1|] eqn:S1; [|discriminate]. cbn [access] in E. injection E as <-. destruct (Z.eqb_spec j i) as [->|N].
    - rewrite P, (load_store _ _ _ _ S1). destruct (pdec p p); [reflexivity|congruence].
    - destruct (place h j) as [q|] eqn:Q; [|reflexivity]. rewrite (load_store _ _ _ _ S1). destruct (pdec q p) as [->|]; [|reflexivity].
      exfalso. apply N. eapply place_inj; eassumption.
  Qed.
  Lemma append_ok : forall fuel m h x, (300 <= fuel)%nat -> wf m h -> Len h < 2 ^ 62 ->
    match UnsafeAppend A zero fits fuel m h x with
    | Done (m', h') => wf m' h' /\ Len h' = Len h + 1 /\
      (Len h < Cap h -> Data h' = Data h /\ Cap h' = Cap h /\ keeps m m' (place h (Len h)) /\ List.length m' = List.length m /\
        forall i, item m' h' i = if i =? Len h then Some x else item m h i) /\
      (Len h = Cap h -> Data h' = Some (List.length m, 0) /\ Len h < Cap h' <= 2 * Len h + 1 /\ keeps m m' None /\ List.length m' = S (List.length m) /\
        forall i, 0 <= i < Cap h' -> item m' h' i = if i <? Len h then item m h i else if i =? Len h then Some x else Some zero)
    | Panics => Len h = Cap h /\ exists c, Len h < c <= 2 * Len h + 1 /\ fits c = false
    | _ => False
    end.
  Proof.
    intros fuel m h x Hf W Hl. assert (R := proj1 W). unfold UnsafeAppend. cbv zeta. rewrite int64_id by lia.
    pose proof (grow_ok fuel m h (Len h + 1) Hf W ltac:(lia)) as G. destruct (UnsafeGrow A zero fits fuel m h (Len h + 1)) as [[m1 h1]| | |]; cbn [bind]; try exact G.
    2: { destruct G as (G1 & c & G2 & G3). split; [lia|]. exists c. split; [lia|exact G3]. }
    destruct G as (W1 & L1 & K & G1 & G2). assert (R1 := proj1 W1).
    destruct (set_ok m1 h1 (Len h) x) as (m2 & E & M2 & K2 & Len2 & P2); [apply (proj2 W1); lia|]. rewrite E. cbn [bind].
    pose proof (set_items _ _ _ _ _ E) as I2. split; [eapply wf_more; eassumption|]. split; [exact L1|]. split.
    - intro C. destruct (G1 ltac:(lia)) as (-> & D & C1). assert (PL : forall i, place h1 i = place h i) by (intro i; unfold place; now rewrite D).
      split; [exact D|]. split; [exact C1|]. split; [now rewrite <- PL|]. split; [exact Len2|]. intro i. rewrite I2. unfold SliceSpec.item. now rewrite PL.
    - intro C. destruct (G2 ltac:(lia)) as (D & C1 & L & I1). split; [exact D|]. split; [lia|]. split; [|split; [congruence|]].
      + intros q y Lq _. apply K2; [apply K; [exact Lq|discriminate]|]. intro Q. unfold place in Q. rewrite D in Q. destruct q as [b j]. injection Q as -> _.
        apply load_bound in Lq. lia.
      + intros i Hi. rewrite I2. destruct (Z.eqb_spec i (Len h)) as [->|N]; [now rewrite Z.ltb_irrefl|]. now apply I1.
  Qed.
End Memory.

(** * Programs *)
Section Programs.
  Variable A : Type.
  Variable zero : A.
  Variable fits : Z -> bool.
  Variable reflectCap : Z -> Z -> Z.
  Local Notation load := (load A).
  Local Notation item := (item A).
  Local Notation wf := (wf A).
  Local Notation holds := (holds A).
  Local Notation keeps := (keeps A).
  Local Notation more := (more A).
  Local Notation mem := (mem A).
  Local Notation vars := (vars A).

  (** Slices with arrays of their own, zeros behind the length *)
  Definition own (m : memory A) (h : header) (l : list A) : Prop :=
    wf m h /\ holds m h l /\ (forall i, Len h <= i < Cap h -> item m h i = Some zero) /\ forall a k, Data h = Some (a, k) -> (a < List.length m)%nat.
  Definition apart (h h' : header) : Prop := forall a k b j, Data h = Some (a, k) -> Data h' = Some (b, j) -> a <> b.
  Definition inv (s : state A) (L : lists A) : Prop :=
    (forall v, own (mem s) (vars s v) (L v)) /\ forall v w, v <> w -> apart (vars s v) (vars s w).
  Lemma item_keeps : forall m m' e h i y, keeps m m' e -> (forall p, place h i = Some p -> Some p <> e) -> item m h i = Some y -> item m' h i = Some y.
  Proof. intros m m' e h i y K N I. unfold SliceSpec.item in *. destruct (place h i) as [p|]; [|discriminate]. apply K; [exact I|]. now apply N. Qed.
  Lemma own_keeps : forall m m' e h l, own m h l -> keeps m m' e -> (forall i p, place h i = Some p -> Some p <> e) -> (List.length m <= List.length m')%nat -> own m' h l.
  Proof.
    intros m m' e h l (W & H & Z0 & D) K N Le.
    assert (I : forall i, 0 <= i < Cap h -> item m' h i = item m h i).
    { intros i Hi. destruct (item m h i) as [y|] eqn:E; [|exfalso; now apply (proj2 W i)]. eapply item_keeps; [exact K|apply N|exact E]. }
    destruct W as [W1 W2]. split; [split; [exact W1|]|split; [split; [apply H|]|split]].
    - intros i Hi. rewrite I by exact Hi. now apply W2.
    - intros i Hi. rewrite I by lia. now apply (proj2 H).
    - intros i Hi. rewrite I by lia. now apply Z0.
    - intros a k E. specialize (D a k E). lia.
  Qed.
  (** One slice is given a new value, in its array or in a new one *)
  Lemma inv_change : forall s L s' L' v, inv s L -> own (mem s') (vars s' v) (L' v) -> (forall w, w <> v -> vars s' w = vars s w /\ L' w = L w) ->
    (List.length (mem s) <= List.length (mem s'))%nat ->
    (Data (vars s' v) = None \/ Data (vars s' v) = Data (vars s v) \/ exists a k, Data (vars s' v) = Some (a, k) /\ (List.length (mem s) <= a)%nat) ->
    (exists e, keeps (mem s) (mem s') e /\ (e = None \/ exists i, e = place (vars s v) i)) -> inv s' L'.
  Proof.
    intros s L s' L' v [I1 I2] Ov Ow Le Da (e & K & Ke). split.
    - intro w. destruct (Nat.eq_dec w v) as [->|N]; [exact Ov|]. destruct (Ow w N) as [-> ->]. eapply own_keeps; [apply I1|exact K| |exact Le].
      intros i p P. destruct Ke as [->|(j & ->)]; [discriminate|]. intro E. unfold place in P, E. destruct (Data (vars s w)) as [[a k]|] eqn:Dw; [|discriminate].
      destruct (Data (vars s v)) as [[b j']|] eqn:Dv; [|discriminate]. injection P as <-. injection E as E1 _. exact (I2 w v N a k b j' Dw Dv E1).
    - assert (G : forall w, w <> v -> apart (vars s' v) (vars s' w)).
      { intros w N. destruct (Ow w N) as [-> _]. intros a k b j Dv Dw. destruct Da as [Da|[Da|(a' & k' & Da & Lt)]].
        - congruence.
        - rewrite Da in Dv. exact (I2 v w ltac:(congruence) a k b j Dv Dw).
        - rewrite Da in Dv. injection Dv as <- <-. destruct (I1 w) as (_ & _ & _ & D). specialize (D b j Dw). lia. }
      intros u w N. destruct (Nat.eq_dec u v) as [->|Nu]; [apply G; congruence|]. destruct (Nat.eq_dec w v) as [->|Nw].
      + intros a k b j Du Dv E. exact (G u Nu b j a k Dv Du (eq_sym E)).
      + destruct (Ow u Nu) as [-> _]. destruct (Ow w Nw) as [-> _]. now apply I2.
  Qed.
  Lemma setVar_at : forall s m v h, vars (setVar A s m v h) v = h.
  Proof. intros. cbn. now rewrite Nat.eqb_refl. Qed.
  Lemma setVar_other : forall s m v h (L : lists A) l w, w <> v -> vars (setVar A s m v h) w = vars s w /\ setList A L v l w = L w.
  Proof. intros s m v h L l w N. unfold setList. cbn. apply Nat.eqb_neq in N. now rewrite N. Qed.
  Lemma setList_at : forall L v (l : list A), setList A L v l v = l.
  Proof. intros. unfold setList. now rewrite Nat.eqb_refl. Qed.

  Lemma lenZ_nonneg : forall T (l : list T), 0 <= lenZ l.
  Proof. intros. unfold lenZ. lia. Qed.
  Lemma lenZ_app : forall T (l r : list T), lenZ (l ++ r) = lenZ l + lenZ r.
  Proof. intros. unfold lenZ. rewrite app_length. lia. Qed.
  Lemma put_length : forall (l : list A) i x, 0 <= i < lenZ l -> lenZ (put A l i x) = lenZ l.
  Proof. intros l i x H. unfold put, lenZ in *. rewrite app_length, firstn_length. cbn [List.length]. rewrite skipn_length. lia. Qed.
  Lemma put_nth : forall (l : list A) i x j, 0 <= i < lenZ l -> nthZ (put A l i x) j = if j =? i then Some x else nthZ l j.
  Proof.
    intros l i x j H. unfold put. rewrite nthZ_app. assert (E : lenZ (firstn (Z.to_nat i) l) = i). { unfold lenZ in *. rewrite firstn_length. lia. } rewrite E.
    destruct (Z.ltb_spec j i) as [C|C].
    - replace (j =? i) with false by lia. unfold nthZ. destruct (Z.ltb_spec j 0); [reflexivity|]. rewrite <- (firstn_skipn (Z.to_nat i) l) at 2.
      rewrite nth_error_app1; [reflexivity|]. unfold lenZ in E. lia.
    - destruct (Z.eqb_spec j i) as [->|N]; [now rewrite Z.sub_diag|]. unfold nthZ. replace (j - i <? 0) with false by lia. replace (j <? 0) with false by lia.
      replace (Z.to_nat (j - i)) with (S (Z.to_nat (j - i - 1))) by lia. cbn [nth_error].
      rewrite <- (firstn_skipn (Z.to_nat (i + 1)) l) at 2. rewrite nth_error_app2 by (rewrite firstn_length; lia). f_equal. rewrite firstn_length. unfold lenZ in H. lia.
  Qed.

  (** Appending and growing, as seen by the owner *)
  Lemma own_append : forall m' h' h l x m, holds m h l -> wf m h -> wf m' h' -> Len h' = Len h + 1 ->
    (forall i, 0 <= i < Cap h' -> item m' h' i = if i <? Len h then item m h i else if i =? Len h then Some x else Some zero) ->
    (forall a k, Data h' = Some (a, k) -> (a < List.length m')%nat) -> own m' h' (l ++ [x]).
  Proof.
    intros m' h' h l x m H W W' L I D. assert (R := proj1 W). assert (R' := proj1 W'). destruct H as [H1 H2]. split; [exact W'|]. split; [|split; [|exact D]].
    - split; [rewrite lenZ_app, L, H1; reflexivity|]. intros i Hi. rewrite I, nthZ_app, H1 by lia. destruct (Z.ltb_spec i (Len h)) as [C|C]; [apply H2; lia|].
      replace (i =? Len h) with true by lia. replace (i - Len h) with 0 by lia. reflexivity.
    - intros i Hi. rewrite I by lia. replace (i <? Len h) with false by lia. now replace (i =? Len h) with false by lia.
  Qed.
  Lemma own_grow : forall m' h' h l m n, holds m h l -> wf m h -> wf m' h' -> Len h' = n -> Len h <= n ->
    (forall i, 0 <= i < Cap h' -> item m' h' i = if i <? Len h then item m h i else Some zero) ->
    (forall a k, Data h' = Some (a, k) -> (a < List.length m')%nat) -> own m' h' (l ++ zeros A zero (n - lenZ l)).
  Proof.
    intros m' h' h l m n H W W' L Ln I D. assert (R := proj1 W). assert (R' := proj1 W'). destruct H as [H1 H2]. split; [exact W'|]. split; [|split; [|exact D]].
    - split; [rewrite lenZ_app, lenZ_zeros by lia; lia|]. intros i Hi. rewrite I, nthZ_app, H1 by lia. destruct (Z.ltb_spec i (Len h)) as [C|C]; [apply H2; lia|].
      rewrite nthZ_zeros by lia. reflexivity.
    - intros i Hi. rewrite I by lia. now replace (i <? Len h) with false by lia.
  Qed.
  Definition fails : Prop := exists c, 0 <= c <= 2 ^ 63 /\ fits c = false.

  Lemma inv_step : forall fuel s L o, (300 <= fuel)%nat -> inv s L -> proper A L o ->
    match step A zero fits fuel s o with
    | Done s' => inv s' (fst (effect A zero L o)) /\ out A s' = out A s ++ snd (effect A zero L o)
    | Panics => fails
    | _ => False
    end.
  Proof.
    intros fuel s L o Hf I P. destruct o as [v n c|v x|v n|v i x|v i|v i|p|p x|v|v w|v w lo hi mx]; cbn [proper] in P; try contradiction; cbn [step effect fst snd].
    - rewrite make_cases. replace (c <? 0) with false by lia. cbn [orb]. destruct (fits c) eqn:F; cbn [negb bind]; [|exists c; split; [lia|exact F]].
      split; [|cbn; now rewrite app_nil_r]. apply (inv_change s L _ _ v I).
      + rewrite setVar_at, setList_at. cbn [SliceModel.mem setVar]. split; [now apply make_wf|]. split; [|split].
        * split; [cbn [Len]; apply lenZ_zeros; lia|]. cbn [Len]. intros i Hi. rewrite item_new by lia. now rewrite nthZ_zeros by lia.
        * cbn [Len Cap]. intros i Hi. apply item_new. lia.
        * cbn [Data]. intros a k [= <- <-]. rewrite app_length. cbn. lia.
      + intros w N. now apply setVar_other.
      + cbn. rewrite app_length. lia.
      + right. right. rewrite setVar_at. cbn [Data]. exists (List.length (mem s)), 0. split; [reflexivity|lia].
      + exists None. split; [apply keeps_new|now left].
    - destruct (proj1 I v) as (W & H & Z0 & D). pose proof (append_ok A zero fits fuel (mem s) (vars s v) x Hf W ltac:(rewrite <- (proj1 H); exact P)) as E.
      assert (R := proj1 W). destruct (UnsafeAppend A zero fits fuel (mem s) (vars s v) x) as [[m' h']| | |]; cbn [bind]; try exact E.
      2: { destruct E as (_ & c & C1 & C2). exists c. split; [|exact C2]. destruct H as [H1 _]. lia. }
      destruct E as (W' & L' & E1 & E2). split; [|cbn; now rewrite app_nil_r].
      destruct (Z.lt_ge_cases (Len (vars s v)) (Cap (vars s v))) as [C|C].
      + destruct (E1 C) as (D1 & C1 & K & Ln & It). apply (inv_change s L _ _ v I).
        * rewrite setVar_at, setList_at. cbn [SliceModel.mem setVar]. apply (own_append m' h' (vars s v) (L v) x (mem s) H W W' L').
          -- intros i Hi. rewrite It. destruct (Z.eqb_spec i (Len (vars s v))) as [->|N]; [now rewrite Z.ltb_irrefl|].
             destruct (Z.ltb_spec i (Len (vars s v))); [reflexivity|]. apply Z0. lia.
          -- rewrite D1. intros a k Da. rewrite Ln. eapply D. exact Da.
        * intros w N. now apply setVar_other.
        * cbn. lia.
        * right. left. rewrite setVar_at. exact D1.
        * exists (place (vars s v) (Len (vars s v))). split; [exact K|right; eauto].
      + destruct (E2 ltac:(lia)) as (D1 & C1 & K & Ln & It). apply (inv_change s L _ _ v I).
        * rewrite setVar_at, setList_at. cbn [SliceModel.mem setVar]. apply (own_append m' h' (vars s v) (L v) x (mem s) H W W' L' It).
          rewrite D1. intros a k [= <- <-]. lia.
        * intros w N. now apply setVar_other.
        * cbn. lia.
        * right. right. rewrite setVar_at, D1. exists (List.length (mem s)), 0. split; [reflexivity|lia].
        * exists None. split; [exact K|now left].
    - destruct (proj1 I v) as (W & H & Z0 & D). assert (HL := proj1 H). pose proof (lenZ_nonneg _ (L v)) as Nn. pose proof (grow_ok A zero fits fuel (mem s) (vars s v) n Hf W ltac:(lia)) as E.
      assert (R := proj1 W). destruct (UnsafeGrow A zero fits fuel (mem s) (vars s v) n) as [[m' h']| | |]; cbn [bind]; try exact E.
      2: { destruct E as (_ & c & C1 & C2). exists c. split; [lia|exact C2]. }
      destruct E as (W' & L' & K & E1 & E2). split; [|cbn; now rewrite app_nil_r].
      destruct (Z.le_gt_cases n (Cap (vars s v))) as [C|C].
      + destruct (E1 C) as (-> & D1 & C1). apply (inv_change s L _ _ v I).
        * rewrite setVar_at, setList_at. cbn [SliceModel.mem setVar]. apply (own_grow (mem s) h' (vars s v) (L v) (mem s) n H W W' L' ltac:(lia)).
          -- intros i Hi. unfold SliceSpec.item, place. rewrite D1. change (item (mem s) (vars s v) i = if i <? Len (vars s v) then item (mem s) (vars s v) i else Some zero).
             destruct (Z.ltb_spec i (Len (vars s v))); [reflexivity|]. apply Z0. lia.
          -- rewrite D1. intros a k Da. eapply D. exact Da.
        * intros w N. now apply setVar_other.
        * cbn. lia.
        * right. left. rewrite setVar_at. exact D1.
        * exists None. split; [exact K|now left].
      + destruct (E2 C) as (D1 & C1 & Ln & It). apply (inv_change s L _ _ v I).
        * rewrite setVar_at, setList_at. cbn [SliceModel.mem setVar]. apply (own_grow m' h' (vars s v) (L v) (mem s) n H W W' L' ltac:(lia) It).
          rewrite D1. intros a k [= <- <-]. lia.
        * intros w N. now apply setVar_other.
        * cbn. lia.
        * right. right. rewrite setVar_at, D1. exists (List.length (mem s)), 0. split; [reflexivity|lia].
        * exists None. split; [exact K|now left].
    - destruct (proj1 I v) as (W & H & Z0 & D). assert (HL := proj1 H). assert (R := proj1 W).
      destruct (set_ok A (mem s) (vars s v) i x) as (m' & E & M & K & Ln & _); [apply (proj2 W); lia|]. rewrite E. cbn [bind]. pose proof (set_items A _ _ _ _ _ E) as It.
      split; [|cbn; now rewrite app_nil_r]. apply (inv_change s L _ _ v I); cbn [SliceModel.mem SliceModel.vars].
      + rewrite setList_at. split; [eapply wf_more; eassumption|]. split; [|split].
        * split; [rewrite put_length by exact P; exact HL|]. intros j Hj. rewrite It, put_nth by exact P. destruct (j =? i); [reflexivity|]. now apply (proj2 H).
        * intros j Hj. rewrite It. replace (j =? i) with false by lia. now apply Z0.
        * intros a k Da. rewrite Ln. eapply D. exact Da.
      + intros w N. split; [reflexivity|]. unfold setList. apply Nat.eqb_neq in N. now rewrite N.
      + lia.
      + right. left. reflexivity.
      + exists (place (vars s v) i). split; [exact K|right; eauto].
    - destruct (proj1 I v) as (W & H & Z0 & D). assert (HL := proj1 H). rewrite get_place. pose proof (proj2 H i ltac:(lia)) as It. unfold SliceSpec.item in It.
      destruct (nthZ_some A (L v) i P) as (y & Y). rewrite Y in It. destruct (place (vars s v) i) as [p|]; [|discriminate]. cbn [obind]. rewrite It. cbn [access bind]. rewrite Y. split; [exact I|reflexivity].
    - cbn [bind]. split; [|cbn; now rewrite app_nil_r]. apply (inv_change s L _ _ v I).
      + rewrite setVar_at, setList_at. cbn. split; [apply wf_nil|]. split; [apply holds_nil|]. split; [cbn; lia|]. cbn. intros; discriminate.
      + intros w N. now apply setVar_other.
      + cbn. lia.
      + left. rewrite setVar_at. reflexivity.
      + exists None. split; [apply keeps_refl|now left].
  Qed.
  Lemma inv_start : inv (start A) (none A).
  Proof.
    split; [|intros v w N a k b j E; discriminate E]. intro v. split; [apply wf_nil|]. split; [apply holds_nil|]. split; [cbn; lia|]. cbn. intros; discriminate.
  Qed.
  Lemma inv_run : forall fuel l s L, (300 <= fuel)%nat -> inv s L -> propers A zero L l ->
    match run A (step A zero fits fuel) s l with
    | Done s' => inv s' (fst (effects A zero L l)) /\ out A s' = out A s ++ snd (effects A zero L l)
    | Panics => fails
    | _ => False
    end.
  Proof.
    intros fuel. induction l as [|o l IH]; intros s L Hf I P.
    - cbn. split; [exact I|now rewrite app_nil_r].
    - cbn [run propers effects] in *. destruct P as [P1 P2]. pose proof (inv_step fuel s L o Hf I P1) as E. destruct (step A zero fits fuel s o) as [s1| | |]; cbn [bind]; try exact E.
      destruct E as [I1 O1]. specialize (IH s1 _ Hf I1 P2). destruct (effect A zero L o) as [L1 x]. cbn [fst snd] in *. destruct (effects A zero L1 l) as [L2 y]. cbn [fst snd] in *.
      destruct (run A (step A zero fits fuel) s1 l); try exact IH. destruct IH as [I2 O2]. split; [exact I2|]. now rewrite O2, O1, app_assoc.
  Qed.

  (** * Any program within the bounds *)
  Lemma append_more : forall fuel m h x m' h', (300 <= fuel)%nat -> wf m h -> Len h < 2 ^ 62 -> UnsafeAppend A zero fits fuel m h x = Done (m', h') -> more m m'.
  Proof.
    intros fuel m h x m' h' Hf W Hl E. pose proof (append_ok A zero fits fuel m h x Hf W Hl) as K. rewrite E in K. destruct K as (W' & _ & K1 & K2). assert (R := proj1 W).
    destruct (Z.lt_ge_cases (Len h) (Cap h)) as [C|C].
    - destruct (K1 C) as (D & _ & K & _ & It). intros q Lq. destruct (load m q) as [y|] eqn:Q; [|now destruct Lq]. destruct (place h (Len h)) as [p|] eqn:P.
      + destruct (pdec q p) as [->|N]; [|rewrite (K q y Q); [discriminate|congruence]]. specialize (It (Len h)). rewrite Z.eqb_refl in It. unfold SliceSpec.item in It.
        replace (place h' (Len h)) with (Some p) in It by (rewrite <- P; unfold place; now rewrite D). rewrite It. discriminate.
      + rewrite (K q y Q); discriminate.
    - destruct (K2 ltac:(lia)) as (_ & _ & K & _). now apply keeps_more.
  Qed.
  Lemma good_more : forall s s', good A s -> more (mem s) (mem s') -> ptrs A s' = ptrs A s -> (forall v, wf (mem s') (vars s' v)) -> good A s'.
  Proof.
    intros s s' [G1 G2] M Pt W. split; [exact W|]. rewrite Pt. eapply Forall_impl; [|exact G2]. cbn. intros p (q & -> & Q). exists q. split; [reflexivity|]. now apply M.
  Qed.
  Lemma good_setVar : forall s m v h, good A s -> more (mem s) m -> wf m h -> good A (setVar A s m v h).
  Proof.
    intros s m v h G M W. apply (good_more s); [exact G|exact M|reflexivity|]. intro w. cbn. destruct (Nat.eqb w v); [exact W|]. eapply wf_more; [exact M|apply G].
  Qed.
  Lemma slice_wf : forall m h lo hi mx h', wf m h -> goSlice h lo hi mx = Done h' -> wf m h'.
  Proof.
    intros m h lo hi mx h' [R I] E. unfold goSlice in E. destruct ((0 <=? lo) && (lo <=? hi) && (hi <=? mx) && (mx <=? Cap h)) eqn:B; [|discriminate].
    injection E as <-. apply andb_prop in B. destruct B as [B B4]. apply andb_prop in B. destruct B as [B B3]. apply andb_prop in B. destruct B as [B1 B2].
    apply Z.leb_le in B1, B2, B3, B4. split; [cbn [Len Cap]; lia|]. cbn [Cap]. intros i Hi. specialize (I (lo + i) ltac:(lia)). unfold SliceSpec.item, place in *. cbn [Data].
    destruct (Data h) as [[a k]|]; cbn [option_map fst snd]; [|exact I]. now rewrite <- Z.add_assoc.
  Qed.
  Lemma good_step : forall fuel s o, (300 <= fuel)%nat -> good A s -> inside A s o ->
    match step A zero fits fuel s o with Done s' => good A s' | Panics => True | _ => False end.
  Proof.
    intros fuel s o Hf G P. destruct G as [G1 G2]. destruct o as [v n c|v x|v n|v i x|v i|v i|p|p x|v|v w|v w lo hi mx]; cbn [inside step] in *.
    - rewrite make_cases. destruct ((c <? 0) || negb (fits c)); [exact I|]. cbn [bind]. apply good_setVar; [split; assumption|apply keeps_more, keeps_new|now apply make_wf].
    - pose proof (append_ok A zero fits fuel (mem s) (vars s v) x Hf (G1 v) P) as E. destruct (UnsafeAppend A zero fits fuel (mem s) (vars s v) x) as [[m' h']| | |] eqn:U; cbn [bind]; try exact E; [|exact I].
      apply good_setVar; [split; assumption| |apply E]. eapply append_more; [exact Hf|apply G1|exact P|exact U].
    - pose proof (grow_ok A zero fits fuel (mem s) (vars s v) n Hf (G1 v) P) as E. destruct (UnsafeGrow A zero fits fuel (mem s) (vars s v) n) as [[m' h']| | |]; cbn [bind]; try exact E; [|exact I].
      destruct E as (W' & _ & K & _). apply good_setVar; [split; assumption|now apply keeps_more|exact W'].
    - destruct (set_ok A (mem s) (vars s v) i x) as (m' & E & M & _); [apply (proj2 (G1 v)); pose proof (proj1 (G1 v)); lia|]. rewrite E. cbn [bind].
      apply (good_more s); [split; assumption|exact M|reflexivity|]. intro w. cbn. eapply wf_more; [exact M|apply G1].
    - split; [exact G1|]. cbn [ptrs SliceModel.mem]. apply Forall_app. split; [exact G2|]. constructor; [|constructor]. rewrite get_place.
      pose proof (proj2 (G1 v) i ltac:(pose proof (proj1 (G1 v)); lia)) as It. unfold SliceSpec.item in It. destruct (place (vars s v) i) as [q|]; [eauto|now destruct It].
    - rewrite get_place. pose proof (proj2 (G1 v) i ltac:(pose proof (proj1 (G1 v)); lia)) as It. unfold SliceSpec.item in It. destruct (place (vars s v) i) as [q|]; [|now destruct It].
      cbn [obind]. destruct (load (mem s) q); [|now destruct It]. cbn [access bind]. split; assumption.
    - destruct (nth_error (ptrs A s) p) as [q|] eqn:Q; [|exact I]. apply nth_error_In in Q. rewrite Forall_forall in G2. destruct (G2 q Q) as (q' & -> & Lq). cbn [obind].
      destruct (load (mem s) q'); [|now destruct Lq]. cbn [access bind]. split; [exact G1|]. now apply Forall_forall.
    - destruct (nth_error (ptrs A s) p) as [q|] eqn:Q; [|exact I]. pose proof Q as Q'. apply nth_error_In in Q. pose proof G2 as G3. rewrite Forall_forall in G2. destruct (G2 q Q) as (q' & -> & Lq). cbn [obind].
      destruct (store_some A (mem s) q' x Lq) as (m' & E). rewrite E. cbn [access bind]. apply (good_more s); [split; assumption| |reflexivity|].
      + intro r. eapply load_kept. exact E.
      + intro w. cbn. eapply wf_more; [|apply G1]. intro r. eapply load_kept. exact E.
    - apply good_setVar; [split; assumption|apply more_refl|apply wf_nil].
    - apply good_setVar; [split; assumption|apply more_refl|apply G1].
    - destruct (goSlice (vars s w) lo hi mx) as [h| | |] eqn:E; cbn [bind].
      + apply good_setVar; [split; assumption|apply more_refl|]. eapply slice_wf; [apply G1|exact E].
      + exact I.
      + unfold goSlice in E. destruct (_ && _); discriminate.
      + unfold goSlice in E. destruct (_ && _); discriminate.
  Qed.
  Lemma good_run : forall fuel l s, (300 <= fuel)%nat -> good A s -> insides A (step A zero fits fuel) s l ->
    match run A (step A zero fits fuel) s l with Done s' => good A s' | Panics => True | _ => False end.
  Proof.
    intros fuel. induction l as [|o l IH]; intros s Hf G P; [exact G|]. cbn [run insides] in *. destruct P as [P1 P2]. pose proof (good_step fuel s o Hf G P1) as E.
    destruct (step A zero fits fuel s o); cbn [bind]; try exact E. now apply IH.
  Qed.
  Lemma good_start : good A (start A).
  Proof. split; [intro v; apply wf_nil|constructor]. Qed.
End Programs.

(** * The safe implementation *)
Section Safe.
  Variable A : Type.
  Variable zero : A.
  Variable fits : Z -> bool.
  Variable reflectCap : Z -> Z -> Z.
  Hypothesis reflectCap_enough : forall c n, 0 <= n -> n <= reflectCap c n.
  Local Notation load := (load A).
  Local Notation item := (item A).
  Local Notation wf := (wf A).
  Local Notation holds := (holds A).
  Local Notation keeps := (keeps A).
  Local Notation more := (more A).
  Local Notation mem := (mem A).
  Local Notation vars := (vars A).
  Local Notation inv := (inv A zero).

  Lemma safe_append_ok : forall m h x, wf m h ->
    match safeAppend A zero fits reflectCap m h x with
    | Done (m', h') => wf m' h' /\ more m m' /\ Len h' = Len h + 1 /\
      (Len h < Cap h -> Data h' = Data h /\ Cap h' = Cap h /\ keeps m m' (place h (Len h)) /\ List.length m' = List.length m /\
        forall i, item m' h' i = if i =? Len h then Some x else item m h i) /\
      (Len h = Cap h -> Data h' = Some (List.length m, 0) /\ Len h < Cap h' /\ keeps m m' None /\ List.length m' = S (List.length m) /\
        forall i, 0 <= i < Cap h' -> item m' h' i = if i <? Len h then item m h i else if i =? Len h then Some x else Some zero)
    | Panics => int64 (Len h + 1) < Len h \/ Len h = Cap h /\ fits (reflectCap (Cap h) (Len h + 1)) = false
    | _ => False
    end.
  Proof.
    intros m h x W. assert (R := proj1 W). unfold safeAppend. destruct (Z.ltb_spec (int64 (Len h + 1)) (Len h)) as [C|C]; [now left|]. clear C.
    destruct (Z.leb_spec (Len h + 1) (Cap h)) as [C|C]; cbn [bind].
    - assert (W1 : wf m (mkH (Data h) (Len h + 1) (Cap h))). { split; [cbn [Len Cap]; lia|]. intros i Hi. apply (proj2 W). exact Hi. }
      destruct (set_ok A m (mkH (Data h) (Len h + 1) (Cap h)) (Len h) x) as (m' & E & M & K & Ln & _); [apply (proj2 W1); cbn [Cap]; lia|]. rewrite E. cbn [bind].
      pose proof (set_items A _ _ _ _ _ E) as It. split; [eapply wf_more; eassumption|]. split; [exact M|]. split; [reflexivity|]. split; [|lia]. intros _.
      split; [reflexivity|]. split; [reflexivity|]. split; [exact K|]. split; [exact Ln|]. intro i. rewrite It. reflexivity.
    - pose proof (reflectCap_enough (Cap h) (Len h + 1) ltac:(lia)) as Rc. set (c := reflectCap (Cap h) (Len h + 1)) in *. rewrite make_cases. replace (c <? 0) with false by lia. cbn [orb].
      destruct (fits c) eqn:F; cbn [negb bind]; [|right; split; [lia|reflexivity]].
      destruct (recopy A zero m h c W ltac:(lia)) as (m1 & E1 & L1 & K1 & I1).
      assert (T : typedslicecopy A (m ++ [zeros A zero c]) (mkH (Some (List.length m, 0)) (Len h + 1) c) h = Done m1).
      { rewrite <- E1. unfold typedslicecopy. cbn [Len Data]. rewrite Z.min_id. now rewrite Z.min_r by lia. }
      rewrite T. cbn [bind].
      assert (W1 : wf m1 (mkH (Some (List.length m, 0)) (Len h + 1) c)).
      { split; [cbn [Len Cap]; lia|]. cbn [Cap]. intros i Hi. rewrite I1 by exact Hi. destruct (Z.ltb_spec i (Len h)); [apply (proj2 W); lia|discriminate]. }
      destruct (set_ok A m1 (mkH (Some (List.length m, 0)) (Len h + 1) c) (Len h) x) as (m' & E & M & K & Ln & _); [apply (proj2 W1); cbn [Cap]; lia|]. rewrite E. cbn [bind].
      pose proof (set_items A _ _ _ _ _ E) as It. split; [eapply wf_more; eassumption|]. split; [eapply more_trans; [apply keeps_more; exact K1|exact M]|]. split; [reflexivity|]. split; [lia|].
      intros _. split; [reflexivity|]. split; [cbn [Cap]; lia|]. split; [|split; [congruence|]].
      + intros q y Lq _. apply K; [apply K1; [exact Lq|discriminate]|]. intro Q. destruct q as [b j]. injection Q as -> _. apply load_bound in Lq. lia.
      + cbn [Cap]. intros i Hi. rewrite It. destruct (Z.eqb_spec i (Len h)) as [->|N]; [now rewrite Z.ltb_irrefl|]. now apply I1.
  Qed.
  Lemma safe_get_ok : forall m h i, wf m h ->
    match safeGetIndex A m h i with
    | Done (m', p) => exists y, item m h i = Some y /\ m' = m ++ [[y]] /\ p = (List.length m, 0) /\ 0 <= i < Len h
    | Panics => ~ (0 <= i < Len h)
    | _ => False
    end.
  Proof.
    intros m h i W. unfold safeGetIndex. destruct (Z.leb_spec 0 i) as [C|C]; cbn [andb]; [|lia]. destruct (Z.ltb_spec i (Len h)) as [C'|C']; [|lia].
    rewrite get_place. pose proof (proj2 W i ltac:(pose proof (proj1 W); lia)) as It. unfold SliceSpec.item in It |- *. destruct (place h i) as [p|]; [|now destruct It].
    cbn [obind]. destruct (load m p) as [y|]; [|now destruct It]. cbn [access bind]. exists y. auto.
  Qed.
  Lemma safe_good_step : forall s o, good A s -> match safeStep A zero fits reflectCap s o with Done s' => good A s' | Panics => True | _ => False end.
  Proof.
    intros s o [G1 G2]. destruct o as [v n c|v x|v n|v i x|v i|v i|p|p x|v|v w|v w lo hi mx]; cbn [safeStep].
    - unfold safeMakeSlice. destruct ((n <? 0) || (c <? 0) || (c <? n)) eqn:B; [exact I|]. apply orb_false_iff in B. destruct B as [B B3]. apply orb_false_iff in B. destruct B as [B1 B2].
      apply Z.ltb_ge in B1, B2, B3. rewrite make_cases. destruct ((c <? 0) || negb (fits c)); [exact I|]. cbn [bind].
      apply good_setVar; [split; assumption|apply keeps_more, keeps_new|apply make_wf; lia].
    - pose proof (safe_append_ok (mem s) (vars s v) x (G1 v)) as E. destruct (safeAppend A zero fits reflectCap (mem s) (vars s v) x) as [[m' h']| | |]; cbn [bind]; try exact E; [|exact I].
      destruct E as (W & M & _). apply good_setVar; [split; assumption|exact M|exact W].
    - unfold safeGrow. destruct (_ =? 0); cbn [bind]; [|exact I]. apply good_setVar; [split; assumption|apply more_refl|apply G1].
    - unfold safeSetIndex. destruct (Z.leb_spec 0 i) as [C|C]; cbn [andb]; [|exact I]. destruct (Z.ltb_spec i (Len (vars s v))) as [C'|C']; [|exact I].
      destruct (set_ok A (mem s) (vars s v) i x) as (m' & E & M & _); [apply (proj2 (G1 v)); pose proof (proj1 (G1 v)); lia|]. rewrite E. cbn [bind].
      apply (good_more A s); [split; assumption|exact M|reflexivity|]. intro w. cbn. eapply wf_more; [exact M|apply G1].
    - pose proof (safe_get_ok (mem s) (vars s v) i (G1 v)) as E. destruct (safeGetIndex A (mem s) (vars s v) i) as [[m' p]| | |]; cbn [bind]; try exact E; [|exact I].
      destruct E as (y & _ & -> & -> & _). assert (M : more (mem s) (mem s ++ [[y]])) by apply keeps_more, keeps_new. split; cbn.
      + intro w. eapply wf_more; [exact M|apply G1].
      + apply Forall_app. split.
        * eapply Forall_impl; [|exact G2]. cbn. intros p (q & -> & Q). exists q. split; [reflexivity|]. now apply M.
        * constructor; [|constructor]. eexists. split; [reflexivity|]. rewrite load_new, Nat.eqb_refl. discriminate.
    - pose proof (safe_get_ok (mem s) (vars s v) i (G1 v)) as E. destruct (safeGetIndex A (mem s) (vars s v) i) as [[m' p]| | |]; cbn [bind]; try exact E; [|exact I].
      destruct E as (y & _ & -> & -> & _). rewrite load_new, Nat.eqb_refl. cbn [nthZ access bind nth_error Z.ltb Z.compare Z.to_nat].
      assert (M : more (mem s) (mem s ++ [[y]])) by apply keeps_more, keeps_new.
      apply (good_more A s); [split; assumption|exact M|reflexivity|]. intro w. cbn. eapply wf_more; [exact M|apply G1].
    - cbn [step]. destruct (nth_error (ptrs A s) p) as [q|] eqn:Q; [|exact I]. apply nth_error_In in Q. pose proof G2 as G3. rewrite Forall_forall in G2. destruct (G2 q Q) as (q' & -> & Lq). cbn [obind].
      destruct (load (mem s) q'); [|now destruct Lq]. cbn [access bind]. split; [exact G1|]. exact G3.
    - cbn [step]. destruct (nth_error (ptrs A s) p) as [q|] eqn:Q; [|exact I]. apply nth_error_In in Q. pose proof G2 as G3. rewrite Forall_forall in G2. destruct (G2 q Q) as (q' & -> & Lq). cbn [obind].
      destruct (store_some A (mem s) q' x Lq) as (m' & E). rewrite E. cbn [access bind]. apply (good_more A s); [split; assumption| |reflexivity|].
      + intro r. eapply load_kept. exact E.
      + intro w. cbn. eapply wf_more; [|apply G1]. intro r. eapply load_kept. exact E.
    - apply good_setVar; [split; assumption|apply more_refl|apply wf_nil].
    - cbn [step]. apply good_setVar; [split; assumption|apply more_refl|apply G1].
    - cbn [step]. destruct (goSlice (vars s w) lo hi mx) as [h| | |] eqn:E; cbn [bind].
      + apply good_setVar; [split; assumption|apply more_refl|]. eapply slice_wf; [apply G1|exact E].
      + exact I.
      + unfold goSlice in E. destruct (_ && _); discriminate.
      + unfold goSlice in E. destruct (_ && _); discriminate.
  Qed.
  Lemma safe_good_run : forall l s, good A s -> match run A (safeStep A zero fits reflectCap) s l with Done s' => good A s' | Panics => True | _ => False end.
  Proof.
    induction l as [|o l IH]; intros s G; [exact G|]. cbn [run]. pose proof (safe_good_step s o G) as E.
    destruct (safeStep A zero fits reflectCap s o); cbn [bind]; try exact E. now apply IH.
  Qed.

  (** Without Grow it does the same to lists *)
  Definition nogrow (o : op A) : Prop := match o with OGrow _ _ _ => False | _ => True end.
  Lemma safe_inv_step : forall s L o, inv s L -> proper A L o -> nogrow o ->
    match safeStep A zero fits reflectCap s o with
    | Done s' => inv s' (fst (effect A zero L o)) /\ out A s' = out A s ++ snd (effect A zero L o)
    | Panics => exists c, fits c = false
    | _ => False
    end.
  Proof.
    intros s L o I P Ng. destruct o as [v n c|v x|v n|v i x|v i|v i|p|p x|v|v w|v w lo hi mx]; cbn [proper nogrow] in P, Ng; try contradiction; cbn [safeStep effect fst snd].
    - unfold safeMakeSlice. replace (n <? 0) with false by lia. replace (c <? 0) with false by lia. replace (c <? n) with false by lia. cbn [orb].
      pose proof (inv_step A zero fits 300 s L (OMake A v n c) ltac:(lia) I P) as E. cbn [step effect fst snd] in E.
      destruct (UnsafeMakeSlice A zero fits (mem s) n c) as [[m h]| | |]; cbn [bind] in *; try exact E. destruct E as (k & _ & F). eauto.
    - destruct (proj1 I v) as (W & H & Z0 & D). pose proof (safe_append_ok (mem s) (vars s v) x W) as E.
      assert (R := proj1 W). assert (HL := proj1 H). destruct (safeAppend A zero fits reflectCap (mem s) (vars s v) x) as [[m' h']| | |]; cbn [bind]; try exact E.
      2: { destruct E as [E|[_ E]]; [rewrite int64_id in E by lia; lia|eauto]. }
      destruct E as (W' & M & L' & E1 & E2). split; [|cbn; now rewrite app_nil_r].
      destruct (Z.lt_ge_cases (Len (vars s v)) (Cap (vars s v))) as [C|C].
      + destruct (E1 C) as (D1 & C1 & K & Ln & It). apply (inv_change A zero s L _ _ v I).
        * rewrite setVar_at, setList_at. cbn [SliceModel.mem setVar]. apply (own_append A zero m' h' (vars s v) (L v) x (mem s) H W W' L').
          -- intros i Hi. rewrite It. destruct (Z.eqb_spec i (Len (vars s v))) as [->|N]; [now rewrite Z.ltb_irrefl|].
             destruct (Z.ltb_spec i (Len (vars s v))); [reflexivity|]. apply Z0. lia.
          -- rewrite D1. intros a k Da. rewrite Ln. eapply D. exact Da.
        * intros w N. now apply setVar_other.
        * cbn. lia.
        * right. left. rewrite setVar_at. exact D1.
        * exists (place (vars s v) (Len (vars s v))). split; [exact K|right; eauto].
      + destruct (E2 ltac:(lia)) as (D1 & C1 & K & Ln & It). apply (inv_change A zero s L _ _ v I).
        * rewrite setVar_at, setList_at. cbn [SliceModel.mem setVar]. apply (own_append A zero m' h' (vars s v) (L v) x (mem s) H W W' L' It).
          rewrite D1. intros a k [= <- <-]. lia.
        * intros w N. now apply setVar_other.
        * cbn. lia.
        * right. right. rewrite setVar_at, D1. exists (List.length (mem s)), 0. split; [reflexivity|lia].
        * exists None. split; [exact K|now left].
    - pose proof (inv_step A zero fits 300 s L (OSet A v i x) ltac:(lia) I P) as E. cbn [step effect fst snd] in E. assert (HL := proj1 (proj1 (proj2 (proj1 I v)))).
      unfold safeSetIndex. replace (0 <=? i) with true by lia. replace (i <? Len (vars s v)) with true by (symmetry; apply Z.ltb_lt; lia). cbn [andb].
      destruct (UnsafeSetIndex A (mem s) (vars s v) i x); cbn [bind] in *; try exact E. destruct E as (k & _ & F). eauto.
    - destruct (proj1 I v) as (W & H & Z0 & D). assert (HL := proj1 H). pose proof (safe_get_ok (mem s) (vars s v) i W) as E.
      destruct (safeGetIndex A (mem s) (vars s v) i) as [[m' p]| | |]; cbn [bind]; try exact E; [|lia]. destruct E as (y & Y & -> & -> & _). rewrite load_new, Nat.eqb_refl.
      cbn [nthZ access bind nth_error Z.ltb Z.compare Z.to_nat]. rewrite (proj2 H i ltac:(lia)) in Y. rewrite Y. split; [|reflexivity].
      apply (inv_change A zero s L _ _ v I); cbn [SliceModel.mem SliceModel.vars].
      + eapply own_keeps; [apply I|apply keeps_new|discriminate|]. rewrite app_length. lia.
      + auto.
      + rewrite app_length. lia.
      + right. left. reflexivity.
      + exists None. split; [apply keeps_new|now left].
    - pose proof (inv_step A zero fits 300 s L (OSetNil A v) ltac:(lia) I P) as E. cbn [step effect fst snd] in E. exact E.
  Qed.
  Lemma safe_inv_run : forall l s L, inv s L -> propers A zero L l -> Forall nogrow l ->
    match run A (safeStep A zero fits reflectCap) s l with
    | Done s' => inv s' (fst (effects A zero L l)) /\ out A s' = out A s ++ snd (effects A zero L l)
    | Panics => exists c, fits c = false
    | _ => False
    end.
  Proof.
    induction l as [|o l IH]; intros s L I P Ng.
    - cbn. split; [exact I|now rewrite app_nil_r].
    - cbn [run propers effects] in *. destruct P as [P1 P2]. apply Forall_cons_iff in Ng. destruct Ng as [N1 N2]. pose proof (safe_inv_step s L o I P1 N1) as E.
      destruct (safeStep A zero fits reflectCap s o) as [s1| | |]; cbn [bind]; try exact E.
      destruct E as [I1 O1]. specialize (IH s1 _ I1 P2 N2). destruct (effect A zero L o) as [L1 x]. cbn [fst snd] in *. destruct (effects A zero L1 l) as [L2 y]. cbn [fst snd] in *.
      destruct (run A (safeStep A zero fits reflectCap) s1 l); try exact IH. destruct IH as [I2 O2]. split; [exact I2|]. now rewrite O2, O1, app_assoc.
  Qed.
End Safe.

(** * The cost of appending *)
Lemma calcNewCap_one : forall fuel c, (2 <= fuel)%nat -> 0 <= c < 2 ^ 62 -> calcNewCap fuel c (c + 1) = Some (if c =? 0 then 1 else if c <? 1024 then 2 * c else c + c / 4).
Proof.
  intros fuel c Hf Hc. unfold calcNewCap. destruct (Z.eqb_spec c 0) as [->|N]; [reflexivity|]. destruct fuel as [|[|fuel]]; [lia|lia|].
  rewrite !capLoop_S. replace (c <? c + 1) with true by lia. destruct (nextCap_grows c ltac:(lia)) as (G & _ & _). replace (nextCap c <? c + 1) with false by lia.
  now rewrite nextCap_val by lia.
Qed.
Lemma append_cap : forall A (zero : A) fits fuel m h x m' h', (300 <= fuel)%nat -> wf A m h -> Len h = Cap h -> Len h < 2 ^ 62 ->
  UnsafeAppend A zero fits fuel m h x = Done (m', h') -> Cap h' = if Len h =? 0 then 1 else if Len h <? 1024 then 2 * Len h else Len h + Len h / 4.
Proof.
  intros A zero fits fuel m h x m' h' Hf W C Hl E. assert (R := proj1 W). unfold UnsafeAppend in E. cbv zeta in E. rewrite int64_id in E by lia. unfold UnsafeGrow in E.
  replace (Len h + 1 <=? Cap h) with false in E by lia. rewrite <- C in E. rewrite calcNewCap_one in E by lia. rewrite make_cases in E.
  destruct (((if Len h =? 0 then 1 else if Len h <? 1024 then 2 * Len h else Len h + Len h / 4) <? 0) || negb (fits (if Len h =? 0 then 1 else if Len h <? 1024 then 2 * Len h else Len h + Len h / 4)));
    cbn [bind] in E; [discriminate|]. destruct (typedslicecopy A _ _ h); cbn [bind] in E; try discriminate. cbn [Data Cap] in E.
  destruct (UnsafeSetIndex A _ _ _ _); cbn [bind] in E; try discriminate. injection E as _ <-. reflexivity.
Qed.
Lemma copied_ok : forall A (zero : A) fits fuel l m h T, (300 <= fuel)%nat -> wf A m h -> T <= 5 * Cap h -> T <= 6 * Len h -> Len h + lenZ l <= 2 ^ 62 ->
  T + copied A (UnsafeAppend A zero fits fuel) m h l <= 6 * (Len h + lenZ l).
Proof.
  intros A zero fits fuel. induction l as [|x l IH]; intros m h T Hf W T1 T2 Hl.
  - cbn [copied]. change (lenZ (@nil A)) with 0. lia.
  - cbn [copied]. assert (R := proj1 W). assert (Lx : lenZ (x :: l) = lenZ l + 1) by (unfold lenZ; cbn [List.length]; lia). assert (0 <= lenZ l) by (unfold lenZ; lia). rewrite Lx in *.
    pose proof (append_ok A zero fits fuel m h x Hf W ltac:(lia)) as E. destruct (UnsafeAppend A zero fits fuel m h x) as [[m' h']| | |] eqn:U; try contradiction.
    + destruct E as (W' & L' & E1 & E2). destruct (Z.ltb_spec (Len h) (Cap h)) as [C|C].
      * destruct (E1 C) as (_ & C' & _). specialize (IH m' h' T Hf W' ltac:(lia) ltac:(lia) ltac:(lia)). lia.
      * assert (Ec : Len h = Cap h) by lia. pose proof (append_cap _ _ _ _ _ _ _ _ _ Hf W Ec ltac:(lia) U) as Cp.
        assert (B : T + Len h <= 5 * Cap h').
        { rewrite Cp. destruct (Z.eqb_spec (Len h) 0); [lia|]. destruct (Z.ltb_spec (Len h) 1024); [lia|]. pose proof (Z.div_mod (Len h) 4 ltac:(lia)). pose proof (Z.mod_pos_bound (Len h) 4 ltac:(lia)). lia. }
        specialize (IH m' h' (T + Len h) Hf W' B ltac:(lia) ltac:(lia)). lia.
    + destruct (Len h <? Cap h); lia.
Qed.
