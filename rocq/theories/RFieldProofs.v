From Verif Require Import Base RFieldModel RFieldSpec.
From Coq Require Import FinFun.
Open Scope list_scope.

Lemma same_iff : forall a b, sameName a b = true <-> a = b.
Proof. intros a b. unfold sameName. destruct (list_eq_dec Z.eq_dec a b); intuition discriminate. Qed.

Section Proofs.
  Variable types : list rtype.
  Notation embeddedStruct := (embeddedStruct types).
  Notation scanFields := (scanFields types).
  Notation scanLevel := (scanLevel types).
  Notation fieldsOf := (fieldsOf types).
  Notation is_struct := (is_struct types).
  Notation brings := (brings types).
  Notation leads := (leads types).
  Notation named_at := (named_at types).

  Lemma fieldsOf_struct : forall t fs, is_struct t fs -> fieldsOf t = fs.
  Proof. intros t fs E. unfold RFieldModel.fieldsOf, typeAt. now rewrite (nth_error_nth _ _ _ E). Qed.
  Lemma typeAt_struct : forall t fs, typeAt types t = RStruct fs <-> is_struct t fs.
  Proof.
    intros t fs. unfold typeAt, RFieldSpec.is_struct. split; intros E; [|now apply nth_error_nth].
    destruct (nth_error types t) as [x|] eqn:N; [rewrite (nth_error_nth _ _ _ N) in E; now rewrite E|].
    apply nth_error_None in N. rewrite nth_overflow in E by exact N. discriminate.
  Qed.
  Lemma typeAt_ptr : forall t u, typeAt types t = RPtr u <-> nth_error types t = Some (RPtr u).
  Proof.
    intros t u. unfold typeAt. split; intros E; [|now apply nth_error_nth].
    destruct (nth_error types t) as [x|] eqn:N; [rewrite (nth_error_nth _ _ _ N) in E; now rewrite E|].
    apply nth_error_None in N. rewrite nth_overflow in E by exact N. discriminate.
  Qed.
  Lemma brings_iff : forall f t, embeddedStruct f = Some t <-> brings f t.
  Proof.
    intros f t. unfold RFieldModel.embeddedStruct, RFieldSpec.brings. destruct (r_embedded f); cbn [negb]; [|split; [discriminate|intros [E _]; discriminate]].
    split.
    - intros E. split; [reflexivity|]. set (n := match typeAt types (r_type f) with RPtr t0 => t0 | _ => r_type f end) in E.
      destruct (typeAt types n) as [fs| |] eqn:TN; try discriminate. injection E as <-. split; [exists fs; now apply typeAt_struct|].
      subst n. destruct (typeAt types (r_type f)) as [| u |] eqn:TF; [now left|right; now apply typeAt_ptr|now left].
    - intros (_ & (fs & S) & [E|E]).
      + subst t. apply typeAt_struct in S. rewrite S. now rewrite S.
      + apply typeAt_ptr in E. rewrite E. apply typeAt_struct in S. now rewrite S.
  Qed.

  Variable m : bytes -> bool.

  (** ** One level as a list of fields *)
  Fixpoint number (i : nat) (fs : list rfield) : list (nat * rfield) := match fs with [] => [] | f :: r => (i, f) :: number (S i) r end.
  Lemma number_in : forall fs i j f, In (j, f) (number i fs) <-> (i <= j)%nat /\ nth_error fs (j - i) = Some f.
  Proof.
    induction fs as [|g r IH]; intros i j f; cbn [number In].
    - split; [contradiction|]. intros [_ E]. destruct (j - i)%nat; discriminate.
    - split.
      + intros [E|I].
        * injection E as -> ->. split; [lia|]. now rewrite Nat.sub_diag.
        * apply IH in I. destruct I as [L N]. split; [lia|]. replace (j - i)%nat with (S (j - S i)) by lia. exact N.
      + intros [L N]. destruct (Nat.eq_dec j i) as [->|NE].
        * left. rewrite Nat.sub_diag in N. now injection N as ->.
        * right. apply IH. split; [lia|]. replace (j - i)%nat with (S (j - S i)) in N by lia. exact N.
  Qed.
  Lemma number_nodup : forall fs i, NoDup (number i fs).
  Proof.
    induction fs as [|g r IH]; intros i; cbn [number]; constructor; [|apply IH]. intros I. apply number_in in I. lia.
  Qed.
  Record item := It { ty : nat; ix : list nat; no : nat; fd : rfield }.
  Definition ipath (a : item) : list nat := ix a ++ [no a].
  Definition matches (a : item) : bool := m (r_name (fd a)).
  Definition emb (a : item) : option nat := embeddedStruct (fd a).
  Definition step (count : nat -> nat) (a : item) (s : scan) : option scan := scanFields m (count (ty a)) (ix a) (no a) [fd a] s.
  Fixpoint run (count : nat -> nat) (its : list item) (s : scan) : option scan :=
    match its with [] => Some s | a :: r => match step count a s with None => None | Some s => run count r s end end.
  Definition itemsOf (t : nat) (index : list nat) (i : nat) (fs : list rfield) : list item := map (fun x => It t index (fst x) (snd x)) (number i fs).
  Lemma scanFields_run : forall count t index fs i s, scanFields m (count t) index i fs s = run count (itemsOf t index i fs) s.
  Proof.
    intros count t index fs. induction fs as [|f r IH]; intros i s; [reflexivity|]. cbn [itemsOf number map run]. unfold step. cbn [ty ix no fd fst snd].
    cbn [RFieldModel.scanFields]. destruct (m (r_name f)).
    - destruct (_ || _); [reflexivity|]. apply IH.
    - destruct (result s); [apply IH|]. destruct (embeddedStruct f) as [n|]; [|apply IH]. destruct (Nat.ltb 0 (nextCount s n)); apply IH.
  Qed.
  Definition with_seen (v : list nat) (s : scan) : scan := Scan v (nextCount s) (next s) (result s).
  Lemma step_seen : forall count a v s, step count a (with_seen v s) = option_map (with_seen v) (step count a s) .
  Proof.
    intros count a v s. unfold step. cbn [RFieldModel.scanFields with_seen result nextCount next visited]. destruct (m _).
    - destruct (_ || _); reflexivity.
    - destruct (result s) eqn:R; cbn; [unfold with_seen; now rewrite R|]. destruct (embeddedStruct _) as [n|]; [|cbn; unfold with_seen; now rewrite R]. cbn. destruct (nextCount s n); reflexivity.
  Qed.
  Lemma run_seen : forall count its v s, run count its (with_seen v s) = option_map (with_seen v) (run count its s).
  Proof.
    intros count its. induction its as [|a r IH]; intros v s; [reflexivity|]. cbn [run]. rewrite step_seen. destruct (step count a s); [apply IH|reflexivity].
  Qed.
  Lemma run_app : forall count l1 l2 s, run count (l1 ++ l2) s = match run count l1 s with None => None | Some s => run count l2 s end.
  Proof. intros count l1. induction l1 as [|a r IH]; intros l2 s; [reflexivity|]. cbn [app run]. destruct (step count a s); [apply IH|reflexivity]. Qed.
  Definition old (seen : list nat) (t : nat) : bool := existsb (Nat.eqb t) seen.
  Lemma old_in : forall seen t, old seen t = true <-> In t seen.
  Proof.
    intros seen t. unfold old. rewrite existsb_exists. split; [intros (x & I & E); apply Nat.eqb_eq in E; now subst|]. intros I. exists t. split; [exact I|apply Nat.eqb_refl].
  Qed.
  Fixpoint items (seen : list nat) (current : list (nat * list nat)) : list item :=
    match current with [] => [] | (t, index) :: r => (if old seen t then [] else itemsOf t index 0 (fieldsOf t)) ++ items seen r end.
  Definition fresh (seen : list nat) (current : list (nat * list nat)) : list nat := filter (fun t => negb (old seen t)) (map fst current).
  Lemma items_more : forall t seen current, ~ In t (map fst current) -> items (t :: seen) current = items seen current /\ fresh (t :: seen) current = fresh seen current.
  Proof.
    intros t seen current. unfold fresh. induction current as [|[t' index] r IH]; intros N; [split; reflexivity|]. cbn [map fst items filter] in *.
    assert (E : old (t :: seen) t' = old seen t').
    { unfold old. cbn [existsb]. destruct (Nat.eqb_spec t' t) as [->|]; [exfalso; apply N; now left|reflexivity]. }
    rewrite E. destruct IH as [A B]; [intros I; apply N; now right|]. rewrite A, B. split; reflexivity.
  Qed.
  Lemma with_seen_id : forall s, with_seen (visited s) s = s.
  Proof. intros []. reflexivity. Qed.
  Lemma scanLevel_run : forall count current s, NoDup (map fst current) ->
    scanLevel m count current s = option_map (with_seen (rev (fresh (visited s) current) ++ visited s)) (run count (items (visited s) current) s).
  Proof.
    intros count current. induction current as [|[t index] r IH]; intros s ND.
    - cbn. now rewrite with_seen_id.
    - cbn [map fst] in ND. apply NoDup_cons_iff in ND. destruct ND as [NI ND]. cbn [RFieldModel.scanLevel items]. unfold fresh. cbn [map fst filter].
      fold (old (visited s) t). destruct (old (visited s) t) eqn:O; cbn [negb app]; [now apply IH|].
      rewrite scanFields_run, run_app. change (Scan (t :: visited s) _ _ _) with (with_seen (t :: visited s) s). rewrite run_seen.
      destruct (run count (itemsOf t index 0 (fieldsOf t)) s) as [s'|] eqn:R; cbn [option_map]; [|reflexivity].
      rewrite IH by exact ND. cbn [with_seen visited]. destruct (items_more t (visited s) r NI) as [-> ->].
      change (Scan (t :: visited s) (nextCount s') (next s') (result s')) with (with_seen (t :: visited s) s'). rewrite run_seen.
      destruct (run count (items (visited s) r) s') as [s''|]; [|reflexivity]. cbn. unfold with_seen. cbn. f_equal. f_equal. unfold fresh. rewrite <- app_assoc. reflexivity.
  Qed.

  Definition start : scan := Scan [] (fun _ => 0%nat) [] None.
  Lemma run_char : forall count its, NoDup its ->
    match run count its start with
    | None => exists a, In a its /\ matches a = true /\ ((1 < count (ty a))%nat \/ exists b, In b its /\ matches b = true /\ b <> a)
    | Some s =>
      match result s with
      | Some g => exists a, In a its /\ matches a = true /\ (count (ty a) <= 1)%nat /\ g = describe (ipath a) (fd a) /\ forall b, In b its -> matches b = true -> b = a
      | None => (forall a, In a its -> matches a = false) /\
          (forall t, (0 < nextCount s t)%nat <-> exists a, In a its /\ emb a = Some t) /\
          (forall t, In t (map fst (next s)) <-> (0 < nextCount s t)%nat) /\ NoDup (map fst (next s)) /\
          (forall t p, In (t, p) (next s) -> exists a, In a its /\ emb a = Some t /\ p = ipath a) /\
          (forall t, (1 < nextCount s t)%nat <-> (exists a, In a its /\ emb a = Some t /\ (1 < count (ty a))%nat) \/
             exists a b, In a its /\ In b its /\ a <> b /\ emb a = Some t /\ emb b = Some t)
      end
    end.
  Proof.
    intros count its. induction its as [|it r IH] using rev_ind; intros ND.
    - cbn. split; [contradiction|]. split; [intros t; split; [lia|intros (a & [] & _)]|]. split; [intros t; split; [contradiction|lia]|]. split; [constructor|].
      split; [contradiction|]. intros t. split; [lia|]. intros [(a & [] & _)|(a & b & [] & _)].
    - assert (NI : ~ In it r /\ NoDup r).
      { apply NoDup_remove in ND. rewrite app_nil_r in ND. destruct ND. split; assumption. }
      destruct NI as [NI ND']. specialize (IH ND'). rewrite run_app.
      assert (IN : forall a, In a (r ++ [it]) <-> In a r \/ a = it).
      { intros a. rewrite in_app_iff. cbn. intuition congruence. }
      destruct (run count r start) as [s|].
      2:{ destruct IH as (a & I & M & H). exists a. split; [apply IN; now left|]. split; [exact M|]. destruct H as [H|(b & I' & M' & N)]; [now left|right; exists b; split; [apply IN; now left|auto]]. }
      cbn [run]. unfold step. cbn [RFieldModel.scanFields]. fold (matches it). fold (emb it). destruct (matches it) eqn:MI.
      + destruct (result s) as [g|] eqn:R.
        * destruct IH as (a & I & M & C & E & U). rewrite orb_true_r. exists a. split; [apply IN; now left|]. split; [exact M|]. right. exists it. split; [apply IN; now right|]. split; [exact MI|]. intros ->. contradiction.
        * rewrite orb_false_r. destruct IH as (NM & _). destruct (Nat.ltb_spec 1 (count (ty it))) as [L|L].
          -- exists it. split; [apply IN; now right|]. split; [exact MI|]. now left.
          -- cbn [result]. exists it. split; [apply IN; now right|]. split; [exact MI|]. split; [exact L|]. split; [reflexivity|].
             intros b I M. apply IN in I. destruct I as [I| ->]; [rewrite (NM b I) in M; discriminate|reflexivity].
      + destruct (result s) as [g|] eqn:R.
        * rewrite R. destruct IH as (a & I & M & C & E & U). exists a. split; [apply IN; now left|]. split; [exact M|]. split; [exact C|]. split; [exact E|].
          intros b I' M'. apply IN in I'. destruct I' as [I'| ->]; [auto|congruence].
        * destruct IH as (H1 & H2 & H3 & H4 & H5 & H6).
          assert (NM : forall a, In a (r ++ [it]) -> matches a = false).
          { intros a I. apply IN in I. destruct I as [I| ->]; auto. }
          destruct (emb it) as [u|] eqn:EI.
          2:{ rewrite R. split; [exact NM|].
            assert (X : forall t (P : item -> Prop), (exists a, In a (r ++ [it]) /\ emb a = Some t /\ P a) <-> exists a, In a r /\ emb a = Some t /\ P a).
            { intros t P. split; intros (a & I & E & Q); exists a; [apply IN in I; destruct I as [I| ->]; [auto|congruence]|split; [apply IN; now left|auto]]. }
            split; [intros t; rewrite H2; split; intros (a & I & E); exists a; [split; [apply IN; now left|exact E]|apply IN in I; destruct I as [I| ->]; [auto|congruence]]|].
            split; [exact H3|]. split; [exact H4|]. split; [intros t p I; destruct (H5 t p I) as (a & I' & E & Q); exists a; split; [apply IN; now left|auto]|].
            intros t. rewrite H6, X. apply or_iff_compat_l. split; intros (a & b & I & I' & N & E & E'); exists a, b.
            - split; [apply IN; now left|]. split; [apply IN; now left|auto].
            - apply IN in I, I'. destruct I as [I| ->]; [|congruence]. destruct I' as [I'| ->]; [auto|congruence]. }
          destruct (Nat.ltb_spec 0 (nextCount s u)) as [L|L]; cbn [result nextCount next].
          -- split; [exact NM|].
             destruct (proj1 (H2 u) L) as (a0 & I0 & E0).
             split; [|split; [|split; [exact H4|split]]].
             ++ intros t. destruct (Nat.eqb_spec t u) as [->|NE].
                ** split; [intros _; exists it; split; [apply IN; now right|exact EI]|lia].
                ** rewrite H2. split; intros (a & I & E); exists a; [split; [apply IN; now left|exact E]|]. apply IN in I. destruct I as [I| ->]; [auto|congruence].
             ++ intros t. rewrite H3. destruct (Nat.eqb_spec t u) as [->|NE]; [|tauto]. lia.
             ++ intros t p I. destruct (H5 t p I) as (a & I' & E & Q). exists a. split; [apply IN; now left|auto].
             ++ intros t. destruct (Nat.eqb_spec t u) as [->|NE].
                ** split; [|lia]. intros _. right. exists a0, it. split; [apply IN; now left|]. split; [apply IN; now right|]. split; [intros ->; contradiction|auto].
                ** rewrite H6. split.
                   --- intros [(a & I & E & Q)|(a & b & I & I' & N & E & E')]; [left; exists a; split; [apply IN; now left|auto]|right; exists a, b].
                       split; [apply IN; now left|]. split; [apply IN; now left|auto].
                   --- intros [(a & I & E & Q)|(a & b & I & I' & N & E & E')].
                       +++ left. exists a. apply IN in I. destruct I as [I| ->]; [auto|congruence].
                       +++ right. exists a, b. apply IN in I, I'. destruct I as [I| ->]; [|congruence]. destruct I' as [I'| ->]; [auto|congruence].
          -- split; [exact NM|].
             assert (NO : forall a, In a r -> emb a <> Some u) by (intros a I E; assert (0 < nextCount s u)%nat by (apply H2; now exists a); lia).
             split; [|split; [|split; [|split]]].
             ++ intros t. destruct (Nat.eqb_spec t u) as [->|NE].
                ** split; [intros _; exists it; split; [apply IN; now right|exact EI]|]. intros _. destruct (Nat.ltb 1 (count (ty it))); lia.
                ** rewrite H2. split; intros (a & I & E); exists a; [split; [apply IN; now left|exact E]|]. apply IN in I. destruct I as [I| ->]; [auto|congruence].
             ++ intros t. rewrite map_app, in_app_iff, H3. cbn [map fst In]. destruct (Nat.eqb_spec t u) as [->|NE].
                ** split; [intros _; destruct (Nat.ltb 1 (count (ty it))); lia|auto].
                ** intuition.
             ++ rewrite map_app. cbn [map fst].
                assert (NU : ~ In u (map fst (next s))) by (rewrite H3; lia). clear -H4 NU. induction (map fst (next s)) as [|x l IH]; [constructor; [intros []|constructor]|].
                apply NoDup_cons_iff in H4. destruct H4 as [A B]. cbn [app]. constructor; [|apply IH; [exact B|intros I; apply NU; now right]].
                rewrite in_app_iff. intros [I|[<-|[]]]; [contradiction|]. apply NU. now left.
             ++ intros t p I. apply in_app_iff in I. destruct I as [I|[I|[]]].
                ** destruct (H5 t p I) as (a & I' & E & Q). exists a. split; [apply IN; now left|auto].
                ** injection I as <- <-. exists it. split; [apply IN; now right|auto].
             ++ intros t. destruct (Nat.eqb_spec t u) as [->|NE].
                ** destruct (Nat.ltb_spec 1 (count (ty it))) as [L1|L1]; (split; [intros H|intros H; try lia]); try lia.
                   --- left. exists it. split; [apply IN; now right|auto].
                   --- exfalso. destruct H as [(a & I & E & Q)|(a & b & I & I' & N & E & E')].
                       +++ apply IN in I. destruct I as [I| ->]; [now apply (NO a)|lia].
                       +++ apply IN in I, I'. destruct I as [I| ->]; [now apply (NO a)|]. destruct I' as [I'| ->]; [now apply (NO b)|contradiction].
                ** rewrite H6. split.
                   --- intros [(a & I & E & Q)|(a & b & I & I' & N & E & E')]; [left; exists a; split; [apply IN; now left|auto]|right; exists a, b].
                       split; [apply IN; now left|]. split; [apply IN; now left|auto].
                   --- intros [(a & I & E & Q)|(a & b & I & I' & N & E & E')].
                       +++ left. exists a. apply IN in I. destruct I as [I| ->]; [auto|congruence].
                       +++ right. exists a, b. apply IN in I, I'. destruct I as [I| ->]; [|congruence]. destruct I' as [I'| ->]; [auto|congruence].
  Qed.

  (** ** The levels *)
  Variable root : nat.
  Hypothesis ROOT : exists fs, is_struct root fs.
  Definition at_depth (d : nat) (t : nat) : Prop := exists p, List.length p = d /\ leads root p t.
  Record inv (d : nat) (count : nat -> nat) (todo : list (nat * list nat)) (seen : list nat) : Prop := Inv {
    i_seen : forall t, In t seen <-> exists d', (d' < d)%nat /\ at_depth d' t;
    i_path : forall t p, In (t, p) todo -> leads root p t /\ List.length p = d;
    i_all : forall t, at_depth d t -> ~ In t seen -> In t (map fst todo);
    i_once : NoDup (map fst todo);
    i_count : forall t p, In (t, p) todo -> ~ In t seen -> ((1 < count t)%nat <-> exists q, List.length q = d /\ leads root q t /\ q <> p);
    i_none : forall path f, named_at root m path f -> (d < List.length path)%nat;
    i_nodup : NoDup seen;
    i_range : forall t, In t seen -> (t < List.length types)%nat }.

  Lemma leads_struct : forall p t, leads root p t -> exists fs, is_struct t fs.
  Proof. intros p t L. destruct L as [|p t fs i f t' L S N B]; [exact ROOT|]. apply B. Qed.
  Lemma leads_det : forall p t, leads root p t -> forall t', leads root p t' -> t = t'.
  Proof.
    intros p t L. induction L as [|p t fs i f t1 L IH S N B]; intros t' L'.
    - inversion L' as [|p' ? ? ? ? ? ? ? ? ? E]; [reflexivity|]. now destruct p'.
    - inversion L' as [E|p' u fs' i' f' t2 L2 S2 N2 B2 E]; [now destruct p|]. apply app_inj_tail in E. destruct E as [-> ->].
      apply IH in L2. subst u. unfold RFieldSpec.is_struct in *. rewrite S in S2. injection S2 as <-. rewrite N in N2. injection N2 as <-.
      apply brings_iff in B, B2. congruence.
  Qed.
  (** An item and where it comes from *)
  Lemma items_in : forall seen current a, In a (items seen current) <->
    In (ty a, ix a) current /\ ~ In (ty a) seen /\ nth_error (fieldsOf (ty a)) (no a) = Some (fd a).
  Proof.
    intros seen current a. induction current as [|[t index] r IH]; cbn [items In]; [tauto|]. rewrite in_app_iff, IH.
    assert (X : In a (if old seen t then [] else itemsOf t index 0 (fieldsOf t)) <-> (t, index) = (ty a, ix a) /\ ~ In (ty a) seen /\ nth_error (fieldsOf (ty a)) (no a) = Some (fd a)).
    { destruct (old seen t) eqn:O.
      - apply old_in in O. split; [contradiction|]. intros (E & N & _). injection E as -> _. contradiction.
      - assert (NO : ~ In t seen) by (intros I; apply old_in in I; congruence). unfold itemsOf. rewrite in_map_iff. split.
        + intros ([i f] & <- & I). apply number_in in I. destruct I as [_ I]. rewrite Nat.sub_0_r in I. cbn. auto.
        + intros (E & _ & N). injection E as -> ->. exists (no a, fd a). split; [now destruct a|]. apply number_in. rewrite Nat.sub_0_r. split; [lia|exact N]. }
    rewrite X. tauto.
  Qed.
  Lemma items_nodup : forall seen current, NoDup (map fst current) -> NoDup (items seen current).
  Proof.
    intros seen current. induction current as [|[t index] r IH]; intros ND; [constructor|]. cbn [map fst] in ND. apply NoDup_cons_iff in ND. destruct ND as [NI ND]. cbn [items].
    destruct (old seen t); [now apply IH|].
    assert (A : NoDup (itemsOf t index 0 (fieldsOf t))).
    { unfold itemsOf. apply Injective_map_NoDup; [|apply number_nodup]. intros [i f] [j g] E. cbn in E. congruence. }
    assert (D : forall a, In a (itemsOf t index 0 (fieldsOf t)) -> ~ In a (items seen r)).
    { intros a I I'. apply items_in in I'. destruct I' as [I' _]. apply NI. apply in_map_iff in I. destruct I as ([i f] & <- & _). cbn in I'. now apply (in_map fst) in I'. }
    specialize (IH ND). revert A D IH. clear. generalize (items seen r) as k. induction (itemsOf t index 0 (fieldsOf t)) as [|x l IHl]; intros k A D N; [exact N|]. cbn [app].
    apply NoDup_cons_iff in A. destruct A as [XA A]. constructor; [|apply IHl; [exact A|intros a I; apply D; now right|exact N]].
    rewrite in_app_iff. intros [I|I]; [contradiction|]. exact (D x (or_introl eq_refl) I).
  Qed.

  Section Level.
    Variable d : nat.
    Variable count : nat -> nat.
    Variable todo : list (nat * list nat).
    Variable seen : list nat.
    Hypothesis INV : inv d count todo seen.
    Notation its := (items seen todo).

    Lemma item_leads : forall a, In a its -> leads root (ix a) (ty a) /\ List.length (ix a) = d /\ exists fs, is_struct (ty a) fs /\ nth_error fs (no a) = Some (fd a).
    Proof.
      intros a I. apply items_in in I. destruct I as (I & _ & N). destruct (i_path _ _ _ _ INV _ _ I) as [L E]. split; [exact L|]. split; [exact E|].
      destruct (leads_struct _ _ L) as [fs S]. exists fs. split; [exact S|]. now rewrite (fieldsOf_struct _ _ S) in N.
    Qed.
    Lemma item_named : forall a, In a its -> matches a = true -> named_at root m (ipath a) (fd a) /\ List.length (ipath a) = S d.
    Proof.
      intros a I M. destruct (item_leads a I) as (L & E & fs & S & N). split; [|unfold ipath; rewrite app_length, E; cbn; lia].
      exists (ix a), (ty a), fs, (no a). auto.
    Qed.
    (** A struct that is reached at this depth, and not before, has its items *)
    Lemma item_of : forall p t fs i f, List.length p = d -> leads root p t -> ~ In t seen -> is_struct t fs -> nth_error fs i = Some f ->
      exists q, In (t, q) todo /\ In (It t q i f) its.
    Proof.
      intros p t fs i f E L NS S N. assert (I : In t (map fst todo)) by (apply (i_all _ _ _ _ INV); [now exists p|exact NS]).
      apply in_map_iff in I. destruct I as ([t' q] & X & I). cbn in X. subst t'. exists q. split; [exact I|]. apply items_in. cbn. split; [exact I|]. split; [exact NS|].
      now rewrite (fieldsOf_struct _ _ S).
    Qed.
    Lemma item_same : forall a b, In a its -> In b its -> ty a = ty b -> no a = no b -> a = b.
    Proof.
      intros [t p i f] [t' p' i' f'] A B E1 E2. cbn in E1, E2. subst t' i'. apply items_in in A, B. cbn in A, B. destruct A as (A & _ & N), B as (B & _ & N').
      assert (p = p').
      { pose proof (i_once _ _ _ _ INV) as U. clear -A B U. induction todo as [|[t0 p0] r IH]; [contradiction|]. cbn [map fst] in U. apply NoDup_cons_iff in U. destruct U as [NI U].
        destruct A as [A|A], B as [B|B]; [congruence| | |auto]; exfalso; apply NI.
        - injection A as -> ->. exact (in_map fst _ _ B).
        - injection B as -> ->. exact (in_map fst _ _ A). }
      subst p'. rewrite N in N'. now injection N' as ->.
    Qed.
    (** What is named at the next length of paths is an item *)
    Lemma named_item : forall path f, named_at root m path f -> List.length path = S d ->
      exists a p, In a its /\ matches a = true /\ fd a = f /\ path = p ++ [no a] /\ leads root p (ty a) /\ List.length p = d.
    Proof.
      intros path f (p & t & fs & i & -> & L & S & N & M) E. rewrite app_length in E. cbn in E. assert (EP : List.length p = d) by lia.
      assert (NS : ~ In t seen).
      { intros I. apply (i_seen _ _ _ _ INV) in I. destruct I as (d' & LD & q & EQ & LQ). pose proof (i_none _ _ _ _ INV (q ++ [i]) f) as H.
        assert (d < List.length (q ++ [i]))%nat by (apply H; exists q, t, fs, i; auto). rewrite app_length in H0. cbn in H0. lia. }
      destruct (item_of p t fs i f EP L NS S N) as (q & I & II). exists (It t q i f), p. cbn. auto 10.
    Qed.

    Lemma level_found : forall g, (exists a, In a its /\ matches a = true /\ (count (ty a) <= 1)%nat /\ g = describe (ipath a) (fd a) /\ forall b, In b its -> matches b = true -> b = a) ->
      exists path f, g = describe path f /\ selects types root m path f.
    Proof.
      intros g (a & I & M & C & -> & U). exists (ipath a), (fd a). split; [reflexivity|]. destruct (item_named a I M) as [NA LE]. split; [exact NA|].
      intros path' f' NA'. pose proof (i_none _ _ _ _ INV _ _ NA') as LT. destruct (Nat.eq_dec (List.length path') (S d)) as [E|NE]; [left|right; lia].
      destruct (named_item path' f' NA' E) as (b & p & I' & M' & F & -> & LP & EP). rewrite (U b I' M') in *. unfold ipath. f_equal.
      destruct (list_eq_dec Nat.eq_dec p (ix a)) as [->|NP]; [reflexivity|]. exfalso. apply items_in in I. destruct I as (I & NS & _).
      pose proof (proj2 (i_count _ _ _ _ INV _ _ I NS) (ex_intro _ p (conj EP (conj LP NP)))). lia.
    Qed.
    Lemma level_conflict : (exists a, In a its /\ matches a = true /\ ((1 < count (ty a))%nat \/ exists b, In b its /\ matches b = true /\ b <> a)) ->
      forall path f, ~ selects types root m path f.
    Proof.
      intros (a & I & M & H) path f (NA & U). destruct (item_named a I M) as [NA1 L1].
      assert (P1 : ipath a = path).
      { destruct (U _ _ NA1) as [E|L]; [exact E|]. pose proof (i_none _ _ _ _ INV _ _ NA). lia. }
      destruct H as [C|(b & I' & M' & NE)].
      - pose proof I as I0. apply items_in in I0. destruct I0 as (I0 & NS & NF). apply (i_count _ _ _ _ INV _ _ I0 NS) in C. destruct C as (q & EQ & LQ & NQ).
        destruct (item_leads a I) as (_ & _ & fs & S & N).
        assert (NA2 : named_at root m (q ++ [no a]) (fd a)) by (exists q, (ty a), fs, (no a); auto).
        destruct (U _ _ NA2) as [E|L]; [|rewrite app_length in L; cbn in L; rewrite <- P1, L1 in L; lia].
        rewrite <- P1 in E. unfold ipath in E. apply app_inj_tail in E. destruct E as [E _]. contradiction.
      - destruct (item_named b I' M') as [NA2 L2].
        assert (P2 : ipath b = path) by (destruct (U _ _ NA2) as [E|L]; [exact E|rewrite <- P1 in L; lia]).
        rewrite <- P1 in P2. unfold ipath in P2. apply app_inj_tail in P2. destruct P2 as [EX EN]. apply NE. apply item_same; auto.
        apply item_leads in I, I'. destruct I as (LA & _), I' as (LB & _). rewrite EX in LB. symmetry. eapply leads_det; eauto.
    Qed.

    Lemma level_next : forall s, (forall a, In a its -> matches a = false) ->
      (forall t, (0 < nextCount s t)%nat <-> exists a, In a its /\ emb a = Some t) ->
      (forall t, In t (map fst (next s)) <-> (0 < nextCount s t)%nat) -> NoDup (map fst (next s)) ->
      (forall t p, In (t, p) (next s) -> exists a, In a its /\ emb a = Some t /\ p = ipath a) ->
      (forall t, (1 < nextCount s t)%nat <-> (exists a, In a its /\ emb a = Some t /\ (1 < count (ty a))%nat) \/
         exists a b, In a its /\ In b its /\ a <> b /\ emb a = Some t /\ emb b = Some t) ->
      inv (S d) (nextCount s) (next s) (rev (fresh seen todo) ++ seen).
    Proof.
      intros s NM H2 H3 H4 H5 H6.
      assert (SEEN : forall t, In t (rev (fresh seen todo) ++ seen) <-> exists d', (d' < S d)%nat /\ at_depth d' t).
      { intros t. rewrite in_app_iff, <- in_rev. unfold fresh. rewrite filter_In, negb_true_iff. split.
        - intros [[I O]|I].
          + apply in_map_iff in I. destruct I as ([t' p] & X & I). cbn in X. subst t'. destruct (i_path _ _ _ _ INV _ _ I) as [L E]. exists d. split; [lia|]. now exists p.
          + apply (i_seen _ _ _ _ INV) in I. destruct I as (d' & L & A). exists d'. split; [lia|exact A].
        - intros (d' & L & A). destruct (in_dec Nat.eq_dec t seen) as [I|NI]; [now right|]. left. split.
          + apply (i_all _ _ _ _ INV); [|exact NI]. destruct (Nat.eq_dec d' d) as [->|NE]; [exact A|]. exfalso. apply NI. apply (i_seen _ _ _ _ INV). exists d'. split; [lia|exact A].
          + destruct (old seen t) eqn:O; [|reflexivity]. apply old_in in O. contradiction. }
      assert (EMB : forall a t, In a its -> emb a = Some t -> leads root (ipath a) t /\ List.length (ipath a) = S d).
      { intros a t I E. destruct (item_leads a I) as (L & LE & fs & S & N). split; [|unfold ipath; rewrite app_length, LE; cbn; lia].
        apply (l_step types root (ix a) (ty a) fs (no a) (fd a) t); auto. now apply brings_iff. }
      assert (NEW : forall q t, leads root q t -> List.length q = S d -> ~ In t (rev (fresh seen todo) ++ seen) ->
        exists a p, In a its /\ emb a = Some t /\ q = p ++ [no a] /\ leads root p (ty a) /\ List.length p = d).
      { intros q t L E NS. inversion L as [E0|p u fs i f t' LP S N B E0]; [subst q; discriminate|]. subst t'.
        rewrite <- E0, app_length in E. cbn in E. assert (EP : List.length p = d) by lia.
        assert (NU : ~ In u seen).
        { intros I. apply (i_seen _ _ _ _ INV) in I. destruct I as (d' & LD & r & ER & LR). apply NS. apply SEEN. exists (Datatypes.S d'). split; [lia|].
          exists (r ++ [i]). split; [rewrite app_length; cbn; lia|]. exact (l_step types root r u fs i f t LR S N B). }
        destruct (item_of p u fs i f EP LP NU S N) as (q' & _ & II). exists (It u q' i f), p. split; [exact II|]. split; [now apply brings_iff|]. cbn. auto. }
      constructor.
      - exact SEEN.
      - intros t p I. destruct (H5 t p I) as (a & I' & E & ->). now apply EMB.
      - intros t (q & E & L) NS. destruct (NEW q t L E NS) as (a & p & I & EM & _). apply H3, H2. now exists a.
      - exact H4.
      - intros t p I NS. destruct (H5 t p I) as (a0 & I0 & E0 & ->). rewrite H6. split.
        + intros [(a & Ia & Ea & C)|(a & b & Ia & Ib & NE & Ea & Eb)].
          * pose proof Ia as X. apply items_in in X. destruct X as (X & NX & _). apply (i_count _ _ _ _ INV _ _ X NX) in C. destruct C as (q & EQ & LQ & NQ).
            destruct (item_leads a Ia) as (LA & _ & fs & S & N).
            assert (LQ' : leads root (q ++ [no a]) t) by (apply (l_step types root q (ty a) fs (no a) (fd a) t); auto; now apply brings_iff).
            destruct (list_eq_dec Nat.eq_dec (q ++ [no a]) (ipath a0)) as [EE|NE].
            -- exists (ipath a). destruct (EMB a t Ia Ea) as [L1 L2]. split; [exact L2|]. split; [exact L1|]. rewrite <- EE. unfold ipath. intros Y. apply app_inj_tail in Y. destruct Y as [Y _]. now apply NQ.
            -- exists (q ++ [no a]). split; [rewrite app_length; cbn; lia|]. split; [exact LQ'|exact NE].
          * assert (NP : ipath a <> ipath b).
            { unfold ipath. intros Y. apply app_inj_tail in Y. destruct Y as [Y1 Y2]. apply NE. apply item_same; auto.
              apply item_leads in Ia, Ib. destruct Ia as (LA & _), Ib as (LB & _). rewrite Y1 in LA. eapply leads_det; eauto. }
            destruct (list_eq_dec Nat.eq_dec (ipath a) (ipath a0)) as [EE|NN].
            -- exists (ipath b). destruct (EMB b t Ib Eb) as [L1 L2]. split; [exact L2|]. split; [exact L1|]. rewrite <- EE. intros Y. now apply NP.
            -- exists (ipath a). destruct (EMB a t Ia Ea) as [L1 L2]. auto.
        + intros (q & EQ & LQ & NQ). destruct (NEW q t LQ EQ NS) as (a & p & Ia & Ea & -> & LP & EP).
          destruct (Nat.eq_dec (ty a) (ty a0)) as [T|T]; [destruct (Nat.eq_dec (no a) (no a0)) as [O|O]|].
          * assert (a = a0) by (apply item_same; auto). subst a0. left. exists a. split; [exact Ia|]. split; [exact Ea|].
            pose proof Ia as X. apply items_in in X. destruct X as (X & NX & _). apply (i_count _ _ _ _ INV _ _ X NX). exists p. split; [exact EP|]. split; [exact LP|].
            intros ->. apply NQ. reflexivity.
          * right. exists a, a0. split; [exact Ia|]. split; [exact I0|]. split; [congruence|auto].
          * right. exists a, a0. split; [exact Ia|]. split; [exact I0|]. split; [congruence|auto].
      - intros path f NA. pose proof (i_none _ _ _ _ INV _ _ NA). destruct (Nat.eq_dec (List.length path) (S d)) as [E|]; [|lia].
        destruct (named_item path f NA E) as (a & p & I & M & _). rewrite (NM a I) in M. discriminate.
      - assert (FN : NoDup (fresh seen todo)) by (apply NoDup_filter, (i_once _ _ _ _ INV)).
        assert (FD : forall t, In t (fresh seen todo) -> ~ In t seen).
        { intros t I. unfold fresh in I. apply filter_In in I. destruct I as [_ O]. apply negb_true_iff in O. intros I. apply old_in in I. congruence. }
        pose proof (i_nodup _ _ _ _ INV) as SN. apply NoDup_rev in FN. assert (FD' : forall t, In t (rev (fresh seen todo)) -> ~ In t seen) by (intros t I; apply in_rev in I; auto).
        revert FN FD' SN. clear. induction (rev (fresh seen todo)) as [|x l IH]; intros A D N; [exact N|]. cbn [app]. apply NoDup_cons_iff in A. destruct A as [XA A].
        constructor; [|apply IH; [exact A|intros t I; apply D; now right|exact N]]. rewrite in_app_iff. intros [I|I]; [contradiction|]. exact (D x (or_introl eq_refl) I).
      - intros t I. apply SEEN in I. destruct I as (d' & _ & p & _ & L). destruct (leads_struct _ _ L) as [fs S]. unfold RFieldSpec.is_struct in S.
        apply nth_error_Some. rewrite S. discriminate.
    Qed.
  End Level.

  (** Nothing left to look at: there is no such field *)
  Lemma inv_empty : forall d count seen, inv d count [] seen -> forall path f, ~ selects types root m path f.
  Proof.
    intros d count seen INV path f ((p & t & fs & i & -> & L & S & N & M) & _).
    (* everything that is reached was reached before *)
    assert (ALL : forall q u, leads root q u -> In u seen).
    { intros q u LQ. induction LQ as [|q u fs0 j g u' LQ IHQ S0 N0 B0].
      - destruct d as [|d]; [|apply (i_seen _ _ _ _ INV); exists 0%nat; split; [lia|exists []; split; [reflexivity|constructor]]].
        destruct (in_dec Nat.eq_dec root seen) as [I|NI]; [exact I|]. exfalso. apply (i_all _ _ _ _ INV root); [|exact NI]. exists []. split; [reflexivity|constructor].
      - apply (i_seen _ _ _ _ INV) in IHQ. destruct IHQ as (d' & LD & r & ER & LR).
        destruct (in_dec Nat.eq_dec u' seen) as [I|NI]; [exact I|]. exfalso.
        assert (A : at_depth (Datatypes.S d') u') by (exists (r ++ [j]); split; [rewrite app_length; cbn; lia|exact (l_step types root r u fs0 j g u' LR S0 N0 B0)]).
        destruct (Nat.eq_dec (Datatypes.S d') d) as [E|NE]; [rewrite E in A; exact (i_all _ _ _ _ INV u' A NI)|].
        apply NI. apply (i_seen _ _ _ _ INV). exists (Datatypes.S d'). split; [lia|exact A]. }
    pose proof (ALL p t L) as I. apply (i_seen _ _ _ _ INV) in I. destruct I as (d' & LD & q & EQ & LQ).
    assert (NA : named_at root m (q ++ [i]) f) by (exists q, t, fs, i; auto). apply (i_none _ _ _ _ INV) in NA. rewrite app_length in NA. cbn in NA. lia.
  Qed.
  Lemma levels_correct : forall fuel d count todo seen, inv d count todo seen -> (List.length types - List.length seen < fuel)%nat ->
    exists r, levels types fuel m count todo seen = Some r /\
      match r with
      | Some g => exists path f, g = describe path f /\ selects types root m path f
      | None => forall path f, ~ selects types root m path f
      end.
  Proof.
    induction fuel as [|fuel IH]; intros d count todo seen INV FU; [lia|]. destruct todo as [|x todo'] eqn:ET.
    - exists None. split; [reflexivity|]. exact (inv_empty d count seen INV).
    - rewrite <- ET in *. assert (UN : levels types (S fuel) m count todo seen =
        match scanLevel m count todo (Scan seen (fun _ => 0%nat) [] None) with
        | None => Some None
        | Some s => match result s with Some f => Some (Some f) | None => levels types fuel m (nextCount s) (next s) (visited s) end
        end) by (rewrite ET; reflexivity).
      rewrite UN. rewrite scanLevel_run by apply (i_once _ _ _ _ INV). cbn [visited].
      change (Scan seen (fun _ => 0%nat) [] None) with (with_seen seen start). rewrite run_seen.
      pose proof (run_char count (items seen todo) (items_nodup seen todo (i_once _ _ _ _ INV))) as RC.
      destruct (run count (items seen todo) start) as [s|]; cbn [option_map].
      2:{ exists None. split; [reflexivity|]. now apply (level_conflict d count todo seen INV). }
      cbn [with_seen result nextCount next visited]. destruct (result s) as [g|].
      + exists (Some g). split; [reflexivity|]. now apply (level_found d count todo seen INV).
      + destruct RC as (H1 & H2 & H3 & H4 & H5 & H6). pose proof (level_next d count todo seen INV s H1 H2 H3 H4 H5 H6) as INV'.
        destruct (fresh seen todo) as [|y l] eqn:FR.
        * assert (E : next s = []).
          { destruct (next s) as [|[t p] r] eqn:N; [reflexivity|]. destruct (H5 t p (or_introl eq_refl)) as (a & I & _). apply items_in in I. destruct I as (I & NS & _).
            assert (X : In (ty a) (fresh seen todo)).
            { unfold fresh. apply filter_In. split; [now apply (in_map fst) in I|]. destruct (old seen (ty a)) eqn:O; [|reflexivity]. apply old_in in O. contradiction. }
            rewrite FR in X. contradiction. }
          rewrite E in *. exists None. split; [destruct fuel; reflexivity|]. exact (inv_empty _ _ _ INV').
        * apply (IH (S d)); [exact INV'|]. rewrite app_length, rev_length. cbn [List.length].
          assert (ND : incl (rev (y :: l) ++ seen) (seq 0 (List.length types))) by (intros z Z'; apply in_seq; pose proof (i_range _ _ _ _ INV' z Z'); lia).
          pose proof (NoDup_incl_length (i_nodup _ _ _ _ INV') ND) as LL. rewrite seq_length, app_length, rev_length in LL. cbn [List.length] in LL. lia.
  Qed.

  Lemma inv_start : inv 0 (fun _ => 0%nat) [(root, [])] [].
  Proof.
    constructor.
    - intros t. split; [contradiction|]. intros (d' & L & _). lia.
    - intros t p [E|[]]. injection E as <- <-. split; [constructor|reflexivity].
    - intros t (p & E & L) _. destruct p; [|discriminate]. left. cbn. inversion L as [|p' ? ? ? ? ? ? ? ? ? E']; [reflexivity|]. now destruct p'.
    - repeat constructor. intros [].
    - intros t p [E|[]] _. injection E as <- <-. split; [lia|]. intros (q & EQ & _ & N). destruct q; [contradiction|discriminate].
    - intros path f (p & t & fs & i & -> & _). rewrite app_length. cbn. lia.
    - constructor.
    - contradiction.
  Qed.
  Theorem func_correct : exists r, fieldByNameFunc types root m = Some r /\
    match r with
    | Some g => exists path f, g = describe path f /\ selects types root m path f
    | None => forall path f, ~ selects types root m path f
    end.
  Proof. apply (levels_correct _ 0 _ _ _ inv_start). cbn. lia. Qed.
End Proofs.

Section Names.
  Variable types : list rtype.
  Hypothesis PROPER : proper_names types.
  Variable root : nat.
  Variable name : bytes.
  Hypothesis NB : name <> bs "_".
  Notation asked := (fun s => sameName s name).

  Lemma quick_char : forall fs i b,
    match quick name i fs b with
    | inl g => exists j f, nth_error fs j = Some f /\ r_name f = name /\ g = describe [(i + j)%nat] f
    | inr b' => (forall f, In f fs -> r_name f <> name) /\ (b' = false -> forall f, In f fs -> r_embedded f = false)
    end.
  Proof.
    induction fs as [|f r IH]; intros i b; cbn [quick]; [split; [contradiction|contradiction]|]. destruct (sameName (r_name f) name) eqn:E.
    - apply same_iff in E. exists 0%nat, f. rewrite Nat.add_0_r. auto.
    - assert (NE : r_name f <> name) by (intros X; apply same_iff in X; congruence). specialize (IH (S i) (b || r_embedded f)).
      assert (MONO : forall l k, quick name k l true <> inr false).
      { clear. induction l as [|g l IH]; intros k; cbn [quick]; [discriminate|]. destruct (sameName _ _); [discriminate|]. apply IH. }
      destruct (quick name (S i) r (b || r_embedded f)) as [g|b'] eqn:Q.
      + destruct IH as (j & f' & N & M & ->). exists (S j), f'. split; [exact N|]. split; [exact M|]. now replace (i + S j)%nat with (S i + j)%nat by lia.
      + destruct IH as [A B]. split; [intros x [<-|I]; auto|]. intros -> x [<-|I]; [|now apply B].
        destruct (r_embedded f); [|reflexivity]. rewrite orb_true_r in Q. now apply MONO in Q.
  Qed.
  Lemma leads_nil : forall t, leads types root [] t -> t = root.
  Proof. intros t L. inversion L as [|p' ? ? ? ? ? ? ? ? ? E']; [reflexivity|]. now destruct p'. Qed.
  Lemma leads_first : forall fs p t, is_struct types root fs -> leads types root p t -> p <> [] -> exists f, In f fs /\ r_embedded f = true.
  Proof.
    intros fs p t SR L. induction L as [|p t fs' i f t' L IH ST N B]; intros NE; [contradiction|]. destruct p as [|x p]; [|apply IH; discriminate].
    apply leads_nil in L. subst t. unfold is_struct in *. rewrite SR in ST. injection ST as <-. exists f. split; [eapply nth_error_In; eauto|apply B].
  Qed.
  Theorem name_correct : forall fs, is_struct types root fs -> exists r, fieldByName types root name = Some r /\
    match r with
    | Some g => exists path f, g = describe path f /\ selects types root asked path f
    | None => forall path f, ~ selects types root asked path f
    end.
  Proof.
    intros fs SR. unfold fieldByName. destruct (sameName name []) eqn:E.
    - apply same_iff in E. exists None. split; [reflexivity|]. intros path f ((p & t & fs' & i & _ & L & ST & N & M) & _). apply same_iff in M. rewrite E in M.
      apply (proj1 (PROPER t fs' ST) f); [eapply nth_error_In; eauto|exact M].
    - pose proof (quick_char (fieldsOf types root) 0 false) as Q. rewrite (fieldsOf_struct types root fs SR) in *.
      destruct (quick name 0 fs false) as [g|b].
      + destruct Q as (j & f & N & M & ->). cbn [Nat.add]. exists (Some (describe [j] f)). split; [reflexivity|]. exists [j], f. split; [reflexivity|]. split.
        * exists [], root, fs, j. split; [reflexivity|]. split; [constructor|]. split; [exact SR|]. split; [exact N|]. now apply same_iff.
        * intros path' f' (p & t & fs' & i & -> & L & ST & N' & M'). destruct p as [|x p]; [left|right; rewrite app_length; cbn; lia].
          apply leads_nil in L. subst t. pose proof SR as SR'. unfold is_struct in SR', ST. rewrite SR' in ST. injection ST as <-. apply same_iff in M'.
          cbn. f_equal. symmetry. apply (proj2 (PROPER root fs SR) j i f f' N N'); congruence.
      + destruct Q as [A B]. destruct b.
        * apply func_correct. now exists fs.
        * exists None. split; [reflexivity|]. intros path f ((p & t & fs' & i & _ & L & ST & N & M) & _). apply same_iff in M. destruct p as [|x p].
          -- apply leads_nil in L. subst t. unfold is_struct in SR, ST. rewrite SR in ST. injection ST as <-. apply (A f); [eapply nth_error_In; eauto|exact M].
          -- destruct (leads_first fs (x :: p) t SR L) as (f0 & I & EM); [discriminate|]. rewrite (B eq_refl f0 I) in EM. discriminate.
  Qed.
  (** At most one field is selected *)
  Lemma selects_det : forall a path f path' f', selects types root a path f -> selects types root a path' f' -> path = path' /\ f = f'.
  Proof.
    intros a path f path' f' [A U] [A' U']. assert (E : path' = path).
    { destruct (U _ _ A') as [E|L]; [exact E|]. destruct (U' _ _ A) as [E|L']; [now symmetry|lia]. }
    subst path'. split; [reflexivity|]. destruct A as (p & t & fs & i & -> & L & ST & N & _), A' as (p' & t' & fs' & i' & E & L' & ST' & N' & _).
    apply app_inj_tail in E. destruct E as [<- <-].
    assert (t' = t).
    { clear -L L'. revert t' L'. induction L as [|p t fs i f t1 L IH S N B]; intros t' L'; [now apply leads_nil in L'|].
      inversion L' as [E|p' u fs' i' f' t2 L2 S2 N2 B2 E]; [now destruct p|]. apply app_inj_tail in E. destruct E as [-> ->].
      apply IH in L2. subst u. unfold is_struct in *. rewrite S in S2. injection S2 as <-. rewrite N in N2. injection N2 as <-.
      apply brings_iff in B, B2. congruence. }
    subst t'. unfold is_struct in *. rewrite ST in ST'. injection ST' as <-. rewrite N in N'. now injection N'.
  Qed.
End Names.
