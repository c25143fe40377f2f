(** Proofs about file rotation. *)
From Coq Require Import Permutation Sorted.
From Verif Require Import Base RotationModel RotationSpec.

Lemma streq_refl : forall s, streq s s = true.
Proof. intro s. unfold streq. destruct (list_eq_dec Z.eq_dec s s); congruence. Qed.
Lemma streq_eq : forall x s, streq x s = true -> x = s.
Proof. intros x s. unfold streq. destruct (list_eq_dec Z.eq_dec x s); congruence. Qed.
Lemma streq_neq : forall x s, x <> s -> streq x s = false.
Proof. intros x s H. unfold streq. destruct (list_eq_dec Z.eq_dec x s); congruence. Qed.

Lemma find_unlink : forall l p q, find (unlink l p) q = if streq p q then None else find l q.
Proof.
  unfold unlink. induction l as [|[x i] l IH]; intros p q; cbn [filter find fst]; [destruct (streq p q); reflexivity|].
  destruct (streq x p) eqn:E; cbn [negb find].
  - apply streq_eq in E. subst x. rewrite IH. destruct (streq p q); reflexivity.
  - rewrite IH. destruct (streq x q) eqn:F; [|reflexivity]. apply streq_eq in F. subst x. destruct (streq p q) eqn:G; [|reflexivity].
    apply streq_eq in G. subst q. rewrite streq_refl in E. discriminate.
Qed.
Lemma find_link : forall l p i q, find (link l p i) q = if streq p q then Some i else find l q.
Proof. intros. unfold link. cbn [find]. rewrite find_unlink. destruct (streq p q); reflexivity. Qed.

Lemma setContent_length : forall l i c, (i < List.length l)%nat -> List.length (setContent l i c) = List.length l.
Proof. intros l i c H. unfold setContent. rewrite app_length, firstn_length. cbn [List.length]. rewrite skipn_length. lia. Qed.
Lemma setContent_nth : forall l i c k, (i < List.length l)%nat -> nth k (setContent l i c) [] = if Nat.eqb i k then c else nth k l [].
Proof.
  unfold setContent. induction l as [|x l IH]; intros i c k H; [cbn in H; lia|]. destruct i as [|i]; cbn [firstn skipn app].
  - destruct k; reflexivity.
  - destruct k as [|k]; cbn [nth Nat.eqb]; [reflexivity|]. apply IH. cbn in H. lia.
Qed.
Lemma writeAt_end : forall c buf, writeAt c (List.length c) buf = c ++ buf.
Proof. intros. unfold writeAt. rewrite firstn_all, Nat.sub_diag, skipn_all2 by lia. cbn [repeat app]. now rewrite app_nil_r. Qed.

Lemma groups_add : forall (g : nat -> list bytes) n c l, List.concat (map g (seq 0 (S n))) = l ->
  List.concat (map (fun k => if Nat.eqb k n then g k ++ [c] else g k) (seq 0 (S n))) = l ++ [c].
Proof.
  intros g n c l <-. rewrite seq_S, !map_app, !concat_app. cbn [map List.concat Nat.add]. rewrite !app_nil_r, Nat.eqb_refl, app_assoc. do 2 f_equal.
  f_equal. apply map_ext_in. intros k Hk. apply in_seq in Hk. replace (Nat.eqb k n) with false; [reflexivity|]. symmetry. apply Nat.eqb_neq. lia.
Qed.

Section Rotation.
  Variable WritePath : bytes.
  Variable Stat : Type.
  Variable noStat : Stat.
  Variable Max : Z.
  Variable hasDirectory : bytes -> bool.
  Let step := RotationModel.step WritePath Stat Max hasDirectory.
  Let run := RotationModel.run WritePath Stat Max hasDirectory.

  Section Files.
    (** The file written first, what was in it, and the files that there were *)
    Variables (i0 n0 : nat) (c0 : bytes).
    Definition ino (k : nat) : nat := match k with O => i0 | S k => n0 + k end.
    Definition nfiles (f : FS) : nat := S (List.length (contents f) - n0).

    Record inv (f : FS) (x : File) (chunks : list bytes) : Prop := {
      inv_old : (i0 < n0 <= List.length (contents f))%nat;
      inv_file : inode x = ino (nfiles f - 1);
      inv_pos : closed x = false -> append x = false -> pos x = List.length (content f (inode x));
      inv_link : find (links f) WritePath = None \/ find (links f) WritePath = Some (ino (nfiles f - 1));
      inv_groups : exists g : nat -> list bytes, List.concat (map g (seq 0 (nfiles f))) = c0 :: chunks /\
        forall k, (k < nfiles f)%nat -> content f (ino k) = List.concat (g k)
    }.
    Lemma ino_lt : forall f k, (i0 < n0 <= List.length (contents f))%nat -> (k < nfiles f)%nat -> (ino k < List.length (contents f))%nat.
    Proof. intros f k H K. unfold nfiles in K. destruct k; cbn [ino]; lia. Qed.
    Lemma ino_inj : forall j k, (i0 < n0)%nat -> ino j = ino k -> j = k.
    Proof. intros j k H E. destruct j, k; cbn [ino] in E; lia. Qed.

    Lemma inv_write : forall f x chunks chunk, inv f x chunks -> closed x = false ->
      inv (fst (fileWrite f x chunk)) (snd (fileWrite f x chunk)) (chunks ++ [chunk]).
    Proof.
      intros f x chunks chunk [H1 H2 H3 H4 H5] Op. specialize (H3 Op).
      assert (N : (nfiles f - 1 < nfiles f)%nat) by (unfold nfiles; lia).
      pose proof (ino_lt f (nfiles f - 1) H1 N) as Lt.
      assert (C : (if append x then content f (inode x) ++ chunk else writeAt (content f (inode x)) (pos x) chunk) = content f (inode x) ++ chunk).
      { destruct (append x); [reflexivity|]. rewrite (H3 eq_refl). apply writeAt_end. }
      unfold fileWrite. rewrite C. cbn [fst snd]. set (f' := mkFS _ _).
      assert (L : List.length (contents f') = List.length (contents f)) by (cbn [f' contents]; apply setContent_length; rewrite H2; exact Lt).
      assert (NF : nfiles f' = nfiles f) by (unfold nfiles; now rewrite L).
      assert (K : forall k, content f' k = if Nat.eqb (inode x) k then content f (inode x) ++ chunk else content f k).
      { intro k. unfold content at 1. cbn [f' contents]. apply setContent_nth. rewrite H2. exact Lt. }
      constructor.
      - rewrite L. exact H1.
      - rewrite NF. exact H2.
      - cbn [closed append pos inode]. intros _ A. rewrite K, Nat.eqb_refl, app_length, (H3 A). reflexivity.
      - rewrite NF. exact H4.
      - rewrite NF. destruct H5 as (g & G1 & G2). exists (fun k => if Nat.eqb k (nfiles f - 1) then g k ++ [chunk] else g k). split.
        + assert (E : nfiles f = S (nfiles f - 1)) by lia. rewrite E in G1. pose proof (groups_add g _ chunk _ G1) as G3. rewrite <- E in G3. exact G3.
        + intros k Hk. rewrite K. destruct (Nat.eqb_spec k (nfiles f - 1)) as [->|Ne].
          * rewrite H2, Nat.eqb_refl, concat_app, (G2 _ Hk). cbn [List.concat]. now rewrite app_nil_r.
          * replace (Nat.eqb (inode x) (ino k)) with false; [now apply G2|]. symmetry. apply Nat.eqb_neq. rewrite H2. intro E. apply ino_inj in E; lia.
    Qed.

    (** Creating the file, when there is none of that path *)
    Lemma inv_create : forall f x chunks, inv f x chunks -> find (links f) WritePath = None ->
      inv (fst (create WritePath f)) (snd (create WritePath f)) chunks /\ nfiles (fst (create WritePath f)) = S (nfiles f) /\
      links (fst (create WritePath f)) = link (links f) WritePath (ino (nfiles f)).
    Proof.
      intros f x chunks [H1 H2 H3 H4 H5] Fn. unfold create. rewrite Fn. cbn [fst snd]. set (f' := mkFS _ _).
      assert (L : List.length (contents f') = S (List.length (contents f))) by (cbn [f' contents]; rewrite app_length; cbn; lia).
      assert (NF : nfiles f' = S (nfiles f)) by (unfold nfiles; rewrite L; lia).
      assert (I : List.length (contents f) = ino (nfiles f)) by (unfold nfiles; cbn [ino]; lia).
      split; [|split; [exact NF|cbn [f' links]; now rewrite I]]. constructor.
      - rewrite L. lia.
      - rewrite NF, Nat.sub_succ, Nat.sub_0_r. exact I.
      - intros _ _. cbn [pos inode]. unfold content. cbn [f' contents]. rewrite app_nth2, Nat.sub_diag by lia. reflexivity.
      - right. cbn [f' links]. rewrite find_link, streq_refl, NF, Nat.sub_succ, Nat.sub_0_r, I. reflexivity.
      - rewrite NF. destruct H5 as (g & G1 & G2). exists (fun k => if Nat.eqb k (nfiles f) then [] else g k). split.
        + rewrite seq_S, map_app, concat_app. cbn [map List.concat Nat.add]. rewrite Nat.eqb_refl, !app_nil_r, <- G1. f_equal.
          apply map_ext_in. intros k Hk. apply in_seq in Hk. replace (Nat.eqb k (nfiles f)) with false; [reflexivity|]. symmetry. apply Nat.eqb_neq. lia.
        + intros k Hk. destruct (Nat.eqb_spec k (nfiles f)) as [->|Ne].
          * rewrite <- I. unfold content. cbn [f' contents]. rewrite app_nth2, Nat.sub_diag by lia. reflexivity.
          * pose proof (ino_lt f k H1 ltac:(lia)) as Lt. rewrite <- (G2 k) by lia. unfold content. cbn [f' contents]. now rewrite app_nth1.
    Qed.
    (** The file of the path opened again *)
    Lemma inv_open : forall f x chunks i, inv f x chunks -> find (links f) WritePath = Some i -> inv f (mkFile i true 0 false) chunks.
    Proof.
      intros f x chunks i [H1 H2 H3 H4 H5] Fi. constructor; try assumption; cbn [inode append]; [|discriminate].
      destruct H4 as [H4|H4]; congruence.
    Qed.
    Lemma inv_close : forall f x chunks, inv f x chunks -> inv f (mkFile (inode x) (append x) (pos x) true) chunks.
    Proof. intros f x chunks [H1 H2 H3 H4 H5]. constructor; try assumption. discriminate. Qed.
    (** Changing only the links *)
    Lemma inv_links : forall f x chunks l, inv f x chunks ->
      find l WritePath = None \/ find l WritePath = find (links f) WritePath -> inv (mkFS l (contents f)) x chunks.
    Proof.
      intros f x chunks l [H1 H2 H3 H4 H5] Hl. constructor; try assumption. cbn [links]. change (nfiles (mkFS l (contents f))) with (nfiles f).
      destruct Hl as [->| ->]; [now left|exact H4].
    Qed.
    Lemma rename_links : forall f f' p, rename WritePath hasDirectory f p = Some f' -> exists i, find (links f) WritePath = Some i /\
      f' = mkFS (link (unlink (links f) WritePath) p i) (contents f) /\ hasDirectory p = true.
    Proof.
      intros f f' p H. unfold rename in H. destruct (find (links f) WritePath) as [i|]; [|discriminate]. destruct (hasDirectory p); [|discriminate].
      injection H as <-. eauto.
    Qed.

    (** One step; when the file is created there is none *)
    Definition creating (s : state Stat) : Prop := match wp _ s with WCreate _ => find (links (fs _ s)) WritePath = None | _ => True end.
    Lemma inv_step : forall s e s' o chunks, inv (fs _ s) (file _ s) chunks -> creating s -> step s e = Some (s', o) ->
      inv (fs _ s') (file _ s') (chunks ++ wrote o).
    Proof.
      intros s e s' o chunks H Cr E.
      assert (Same : fs _ s' = fs _ s -> file _ s' = file _ s -> wrote o = [] -> inv (fs _ s') (file _ s') (chunks ++ wrote o)).
      { intros -> -> ->. now rewrite app_nil_r. }
      destruct e; cbn [step RotationModel.step] in E.
      - unfold stepW in E. unfold creating in Cr. destruct (wp _ s); try discriminate E. injection E as <- <-. now apply Same.
      - unfold stepW in E. unfold creating in Cr. destruct (wp _ s); try discriminate E.
        + injection E as <- <-. now apply Same.
        + injection E as <- <-. cbn [setW setFile fs file wrote flat_map]. rewrite app_nil_r. now apply inv_close.
        + destruct (status _ s =? statusNormal); injection E as <- <-; now apply Same.
        + injection E as <- <-. now apply Same.
      - unfold stepW in E. unfold creating in Cr. destruct (wp _ s); try discriminate E.
        + destruct fails; [injection E as <- <-; now apply Same|]. destruct (find (links (fs _ s)) WritePath) as [i|] eqn:Fi.
          * injection E as <- <-. cbn [setW setFile fs file wrote flat_map app]. rewrite app_nil_r. now apply inv_open with (x := file _ s).
          * injection E as <- <-. now apply Same.
        + destruct fails; [injection E as <- <-; now apply Same|]. destruct (create WritePath (fs _ s)) as [f x] eqn:C.
          injection E as <- <-. cbn [setW setFile fs file wrote flat_map app]. rewrite app_nil_r.
          destruct (inv_create (fs _ s) (file _ s) chunks H Cr) as [J _]. rewrite C in J. exact J.
      - unfold stepW in E. unfold creating in Cr. destruct (wp _ s); try discriminate E. destruct (closed (file _ s)) eqn:Cl; [injection E as <- <-; now apply Same|].
        set (chunk := match fails with None => buf | Some n => firstn n buf end) in *. pose proof (inv_write (fs _ s) (file _ s) chunks chunk H Cl) as J.
        destruct (fileWrite (fs _ s) (file _ s) chunk) as [f x]. injection E as <- <-. exact J.
      - unfold stepW in E. unfold creating in Cr. destruct (wp _ s); try discriminate E. destruct answer as [[]|]; injection E as <- <-; now apply Same.
      - unfold stepR in E. destruct (rp _ s) as [| | | | |[|y l]|]; try discriminate E. destruct duration as [d|]; injection E as <- <-; [|now apply Same].
        destruct (0 <? d); now apply Same.
      - unfold stepR in E. destruct (rp _ s) as [| | | | |[|y l]|]; try discriminate E. destruct (rtimer _ s); try discriminate. injection E as <- <-; now apply Same.
      - unfold stepR in E. destruct (rp _ s) as [| | | | |[|y l]|]; try discriminate E. destruct next as [p|]; [|injection E as <- <-; now apply Same].
        destruct fails; [injection E as <- <-; now apply Same|]. destruct (rename WritePath hasDirectory (fs _ s) p) as [f|] eqn:R; [|injection E as <- <-; now apply Same].
        injection E as <- <-. cbn [setR setFile fs file wrote flat_map app]. rewrite app_nil_r. destruct (rename_links _ _ _ R) as (i & Fi & -> & _).
        apply inv_links; [exact H|]. rewrite find_link, find_unlink, streq_refl. destruct (streq p WritePath); [right; now rewrite Fi|now left].
      - unfold stepR in E. destruct (rp _ s) as [| | | | |[|y l]|]; try discriminate E. destruct archives; injection E as <- <-; now apply Same.
      - unfold stepR in E. destruct (rp _ s) as [| | | | |[|y l]|]; try discriminate; [|injection E as <- <-; now apply Same].
        destruct (PurgeSet Max archives spare); injection E as <- <-; now apply Same.
      - unfold stepR in E. destruct (rp _ s) as [| | | | |[|y l]|]; try discriminate. destruct fails; [injection E as <- <-; now apply Same|].
        destruct (find (links (fs _ s)) (Path y)) as [i|]; injection E as <- <-; [|now apply Same].
        cbn [setR setFile fs file wrote flat_map app]. rewrite app_nil_r. apply inv_links; [exact H|]. rewrite find_unlink.
        destruct (streq (Path y) WritePath); [now left|now right].
      - unfold stepW in E. unfold creating in Cr. destruct (wp _ s); try discriminate E. destruct (rp _ s); try discriminate; injection E as <- <-;
          cbn [setR setW setFile fs file wrote flat_map]; rewrite app_nil_r; now apply inv_close.
    Qed.

    Ltac stepcases E := unfold stepW, stepR in E;
      repeat match type of E with
      | match wp _ ?s with _ => _ end = _ => let W := fresh "W" in destruct (wp _ s) eqn:W; try discriminate E
      | match rp _ ?s with _ => _ end = _ => let W := fresh "R" in destruct (rp _ s) as [| | | |? ?|[|? ?]|] eqn:W; try discriminate E
      end.
    Lemma creating_step : forall s e s' o, creating s -> step s e = Some (s', o) -> creating s'.
    Proof.
      intros s e s' o Cr E. unfold creating in *. destruct e; cbn [step RotationModel.step] in E; stepcases E;
        repeat match type of E with
        | Some _ = Some _ => injection E as <- <-
        | context [match ?x with _ => _ end] => destruct x eqn:?; try discriminate E
        end; cbn [setW setR setFile setStat setStatus setTimer wp fs links]; rewrite ?W; try exact I; try assumption; try (destruct (wp _ s); exact I || assumption).
      all: try (destruct (0 <? _); exact Cr).
      { destruct (_ =? _); exact I. }
      all: destruct (wp _ s); try exact I.
      - match goal with H : rename _ _ _ _ = Some _ |- _ => destruct (rename_links _ _ _ H) as (i & Fi & _) end. congruence.
      - rewrite find_unlink. destruct (streq _ _); [reflexivity|assumption].
    Qed.

    (** The names of the files *)
    Definition named (f : FS) (ns rem : list bytes) : Prop :=
      ((find (links f) WritePath = Some (ino (List.length ns)) /\ nfiles f = S (List.length ns)) \/
       (find (links f) WritePath = None /\ nfiles f = List.length ns)) /\
      (forall k p, nth_error ns k = Some p -> p <> WritePath /\ (find (links f) p = Some (ino k) \/ In p rem)).
    Definition new_name (s : state Stat) (e : event Stat) : Prop :=
      match e with ERename _ (Some p) _ => find (links (fs _ s)) p = None \/ find (links (fs _ s)) WritePath = None | _ => True end.

    Lemma named_step : forall s e s' o chunks ns rem, inv (fs _ s) (file _ s) chunks -> creating s -> named (fs _ s) ns rem -> new_name s e ->
      step s e = Some (s', o) -> ~ In WritePath (removed o) -> named (fs _ s') (ns ++ archived o) (rem ++ removed o).
    Proof.
      intros s e s' o chunks ns rem H Cr N Nn E NR.
      assert (Same : fs _ s' = fs _ s -> archived o = [] -> removed o = [] -> named (fs _ s') (ns ++ archived o) (rem ++ removed o)).
      { intros -> -> ->. now rewrite !app_nil_r. }
      destruct e; cbn [step RotationModel.step] in E.
      - unfold stepW in E. destruct (wp _ s); try discriminate E. injection E as <- <-. now apply Same.
      - unfold stepW in E. destruct (wp _ s); try discriminate E.
        + injection E as <- <-. now apply Same.
        + injection E as <- <-. now apply Same.
        + destruct (status _ s =? statusNormal); injection E as <- <-; now apply Same.
        + injection E as <- <-. now apply Same.
      - unfold stepW in E. unfold creating in Cr. destruct (wp _ s); try discriminate E.
        + destruct fails; [injection E as <- <-; now apply Same|]. destruct (find (links (fs _ s)) WritePath) as [i|] eqn:Fi;
            injection E as <- <-; now apply Same.
        + destruct fails; [injection E as <- <-; now apply Same|]. destruct (inv_create (fs _ s) (file _ s) chunks H Cr) as (_ & J1 & J2).
          destruct (create WritePath (fs _ s)) as [f x]. cbn [fst] in J1, J2.
          injection E as <- <-. cbn [setW setFile fs archived removed flat_map app]. rewrite !app_nil_r.
          destruct N as [[[N _]|[_ N]] N2]; [congruence|]. split.
          * left. rewrite J2, find_link, streq_refl, J1, N. auto.
          * intros k p K. destruct (N2 k p K) as [P Q]. split; [exact P|]. rewrite J2, find_link, streq_neq by congruence. exact Q.
      - unfold stepW in E. destruct (wp _ s); try discriminate E. destruct (closed (file _ s)) eqn:Cl; [injection E as <- <-; now apply Same|].
        unfold fileWrite in E. cbv zeta in E. injection E as <- <-. cbn [setW setFile fs archived removed flat_map app]. rewrite !app_nil_r.
        unfold named, nfiles. cbn [links contents]. rewrite setContent_length; [exact N|]. rewrite (inv_file _ _ _ H). apply ino_lt; [apply H|unfold nfiles; lia].
      - unfold stepW in E. destruct (wp _ s); try discriminate E. destruct answer as [[]|]; injection E as <- <-; now apply Same.
      - unfold stepR in E. destruct (rp _ s) as [| | | | |[|y l]|]; try discriminate E. destruct duration as [d|]; injection E as <- <-; [|now apply Same].
        destruct (0 <? d); now apply Same.
      - unfold stepR in E. destruct (rp _ s) as [| | | | |[|y l]|]; try discriminate E. destruct (rtimer _ s); try discriminate. injection E as <- <-; now apply Same.
      - unfold stepR in E. destruct (rp _ s) as [| | | | |[|y l]|]; try discriminate E. destruct next as [p|]; [|injection E as <- <-; now apply Same].
        destruct fails; [injection E as <- <-; now apply Same|]. destruct (rename WritePath hasDirectory (fs _ s) p) as [f|] eqn:R; [|injection E as <- <-; now apply Same].
        injection E as <- <-. cbn [setR setFile fs archived removed flat_map app]. rewrite app_nil_r. destruct (rename_links _ _ _ R) as (i & Fi & -> & _).
        cbn [new_name] in Nn. destruct Nn as [Nn|Nn]; [|congruence]. destruct N as [[[N1 N3]|[N1 _]] N2]; [|congruence].
        assert (Np : p <> WritePath) by congruence. rewrite N1 in Fi. injection Fi as <-. split.
        + right. cbn [links]. rewrite find_link, find_unlink, streq_refl, streq_neq by assumption. split; [reflexivity|].
          change (nfiles (mkFS _ (contents (fs _ s)))) with (nfiles (fs _ s)). rewrite app_length. cbn [List.length]. lia.
        + intros k q K. cbn [links]. rewrite find_link, find_unlink. destruct (Nat.lt_ge_cases k (List.length ns)) as [L|L].
          * rewrite nth_error_app1 in K by exact L. destruct (N2 k q K) as [P Q]. split; [exact P|]. rewrite (streq_neq WritePath q) by congruence.
            destruct (streq p q) eqn:Eq; [|exact Q]. apply streq_eq in Eq. subst q. right. destruct Q as [Q|Q]; [congruence|exact Q].
          * rewrite nth_error_app2 in K by exact L. destruct (k - List.length ns)%nat as [|d] eqn:Ed; [|destruct d; discriminate K]. injection K as <-.
            split; [exact Np|]. left. rewrite streq_refl. do 2 f_equal. lia.
      - unfold stepR in E. destruct (rp _ s) as [| | | | |[|y l]|]; try discriminate E. destruct archives; injection E as <- <-; now apply Same.
      - unfold stepR in E. destruct (rp _ s) as [| | | | |[|y l]|]; try discriminate E; [|injection E as <- <-; now apply Same].
        destruct (PurgeSet Max archives spare); injection E as <- <-; now apply Same.
      - unfold stepR in E. destruct (rp _ s) as [| | | | |[|y l]|]; try discriminate E. destruct fails; [injection E as <- <-; now apply Same|].
        destruct (find (links (fs _ s)) (Path y)) as [i|]; injection E as <- <-; [|now apply Same].
        cbn [setR setFile fs archived removed flat_map app] in NR |- *. rewrite app_nil_r.
        assert (Ny : Path y <> WritePath) by (intro Q; apply NR; left; exact Q). destruct N as [N1 N2]. split.
        + cbn [links]. rewrite find_unlink, streq_neq by exact Ny. exact N1.
        + intros k p K. cbn [links]. rewrite find_unlink. destruct (N2 k p K) as [P Q]. split; [exact P|].
          destruct (streq (Path y) p) eqn:Eq; [right; apply in_or_app; right; left; now apply streq_eq|].
          destruct Q as [Q|Q]; [now left|right; apply in_or_app; now left].
      - unfold stepW in E. destruct (wp _ s); try discriminate E. destruct (rp _ s); try discriminate; injection E as <- <-; now apply Same.
    Qed.
  End Files.

  (** Records that are not yet written; the file is open when it is written *)
  Definition pending (s : state Stat) : list bytes :=
    match wp _ s with WStart b | WClose b | WOpen b | WCreate b | WWrite b => [b] | _ => [] end.
  Definition opened (s : state Stat) : Prop := match wp _ s with WOpen _ | WCreate _ | WDone => True | _ => closed (file _ s) = false end.
  Lemma pending_step : forall s e s' o, opened s -> healthy _ e -> step s e = Some (s', o) ->
    opened s' /\ wrote o ++ pending s' = pending s ++ calls _ [e].
  Proof.
    intros s e s' o Op He E. unfold opened, pending in *. destruct e; cbn [step RotationModel.step healthy] in E, He; subst.
    - unfold stepW in E. destruct (wp _ s) eqn:W; try discriminate E. injection E as <- <-. cbn. auto.
    - unfold stepW in E. destruct (wp _ s) eqn:W; try discriminate E.
      + injection E as <- <-. destruct (status _ s =? statusArchived); cbn; auto.
      + injection E as <- <-. cbn. auto.
      + destruct (status _ s =? statusNormal); injection E as <- <-; cbn; auto.
      + injection E as <- <-. cbn. auto.
    - unfold stepW in E. destruct (wp _ s) eqn:W; try discriminate E.
      + destruct (find (links (fs _ s)) WritePath); injection E as <- <-; cbn; auto.
      + unfold create in E. destruct (find (links (fs _ s)) WritePath); injection E as <- <-; cbn; auto.
    - unfold stepW in E. destruct (wp _ s) eqn:W; try discriminate E. rewrite Op in E. unfold fileWrite in E. cbv zeta in E. injection E as <- <-. cbn. auto.
    - unfold stepW in E. destruct (wp _ s) eqn:W; try discriminate E. destruct answer as [[]|]; injection E as <- <-; cbn; auto.
    - unfold stepR in E. destruct (rp _ s) as [| | | | |[|y l]|]; try discriminate E. destruct duration as [d|]; injection E as <- <-; [|cbn; rewrite app_nil_r; auto].
      destruct (0 <? d); cbn; rewrite app_nil_r; auto.
    - unfold stepR in E. destruct (rp _ s) as [| | | | |[|y l]|]; try discriminate E. destruct (rtimer _ s); try discriminate E. injection E as <- <-; cbn; rewrite app_nil_r; auto.
    - unfold stepR in E. destruct (rp _ s) as [| | | | |[|y l]|]; try discriminate E. destruct next as [p|]; [|injection E as <- <-; cbn; rewrite app_nil_r; auto].
      destruct fails; [injection E as <- <-; cbn; rewrite app_nil_r; auto|]. destruct (rename WritePath hasDirectory (fs _ s) p); injection E as <- <-; cbn; rewrite app_nil_r; auto.
    - unfold stepR in E. destruct (rp _ s) as [| | | | |[|y l]|]; try discriminate E. destruct archives; injection E as <- <-; cbn; rewrite app_nil_r; auto.
    - unfold stepR in E. destruct (rp _ s) as [| | | | |[|y l]|]; try discriminate E; [|injection E as <- <-; cbn; rewrite app_nil_r; auto].
      destruct (PurgeSet Max archives spare); injection E as <- <-; cbn; rewrite app_nil_r; auto.
    - unfold stepR in E. destruct (rp _ s) as [| | | | |[|y l]|]; try discriminate E. destruct fails; [injection E as <- <-; cbn; rewrite app_nil_r; auto|].
      destruct (find (links (fs _ s)) (Path y)); injection E as <- <-; cbn; rewrite app_nil_r; auto.
    - unfold stepW in E. destruct (wp _ s) eqn:W; try discriminate E. destruct (rp _ s); try discriminate; injection E as <- <-; cbn; auto.
  Qed.

  Lemma run_cons : forall s e l s' o, run s (e :: l) = Some (s', o) ->
    exists s1 o1 o2, step s e = Some (s1, o1) /\ run s1 l = Some (s', o2) /\ o = o1 ++ o2.
  Proof.
    intros s e l s' o H. cbn [run RotationModel.run] in H. fold step in H. destruct (step s e) as [[s1 o1]|]; [|discriminate]. cbn [obind] in H. fold run in H.
    destruct (run s1 l) as [[s2 o2]|] eqn:R; [|discriminate]. cbn [obind] in H. injection H as <- <-. eauto 8.
  Qed.
  Lemma wrote_app : forall o o', wrote (o ++ o') = wrote o ++ wrote o'.
  Proof. intros. apply flat_map_app. Qed.
  Lemma archived_app : forall o o', archived (o ++ o') = archived o ++ archived o'.
  Proof. intros. apply flat_map_app. Qed.
  Lemma removed_app : forall o o', removed (o ++ o') = removed o ++ removed o'.
  Proof. intros. apply flat_map_app. Qed.

  Lemma inv_run : forall i0 n0 c0 l s s' o chunks, inv i0 n0 c0 (fs _ s) (file _ s) chunks -> creating s -> run s l = Some (s', o) ->
    inv i0 n0 c0 (fs _ s') (file _ s') (chunks ++ wrote o).
  Proof.
    intros i0 n0 c0. induction l as [|e l IH]; intros s s' o chunks H Cr R.
    - cbn in R. injection R as <- <-. cbn. now rewrite app_nil_r.
    - apply run_cons in R. destruct R as (s1 & o1 & o2 & E & R & ->). rewrite wrote_app, app_assoc. eapply IH; [|eapply creating_step; eassumption|exact R].
      eapply inv_step; eassumption.
  Qed.
  Lemma named_run : forall i0 n0 c0 l s s' o chunks ns rem, inv i0 n0 c0 (fs _ s) (file _ s) chunks -> creating s -> named i0 n0 (fs _ s) ns rem ->
    new_names _ WritePath Max hasDirectory s l -> run s l = Some (s', o) -> ~ In WritePath (removed o) ->
    named i0 n0 (fs _ s') (ns ++ archived o) (rem ++ removed o).
  Proof.
    intros i0 n0 c0. induction l as [|e l IH]; intros s s' o chunks ns rem H Cr N Nn R NR.
    - cbn in R. injection R as <- <-. cbn. now rewrite !app_nil_r.
    - apply run_cons in R. destruct R as (s1 & o1 & o2 & E & R & ->). cbn [new_names] in Nn. destruct Nn as [Nn Nn'].
      fold step in Nn'. rewrite E in Nn'. rewrite removed_app in NR |- *. rewrite archived_app, !app_assoc.
      eapply IH; [| | |exact Nn'|exact R|].
      + eapply inv_step; eassumption.
      + eapply creating_step; eassumption.
      + eapply named_step; try eassumption. intro Q. apply NR. apply in_or_app. now left.
      + intro Q. apply NR. apply in_or_app. now right.
  Qed.
  Lemma pending_run : forall l s s' o, opened s -> Forall (healthy _) l -> run s l = Some (s', o) -> wrote o ++ pending s' = pending s ++ calls _ l.
  Proof.
    induction l as [|e l IH]; intros s s' o Op F R.
    - cbn in R. injection R as <- <-. cbn. now rewrite app_nil_r.
    - apply run_cons in R. destruct R as (s1 & o1 & o2 & E & R & ->). apply Forall_cons_iff in F. destruct F as [F1 F2].
      destruct (pending_step s e s1 o1 Op F1 E) as [Op1 P1]. rewrite wrote_app, <- app_assoc, (IH s1 s' o2 Op1 F2 R), app_assoc, P1, <- app_assoc. f_equal.
      unfold calls. cbn [flat_map]. now rewrite app_nil_r.
  Qed.

  (** The beginning *)
  Definition start (f : FS) := RotationModel.NewWriter WritePath Stat noStat f.
  Lemma start_inv : forall f, good_fs f -> exists i0 n0, let s := start f in
    inv i0 n0 (read f WritePath) (fs _ s) (file _ s) [] /\ named i0 n0 (fs _ s) [] [] /\ creating s /\ opened s /\ pending s = [] /\ (List.length (contents f) <= n0)%nat.
  Proof.
    intros f G. unfold start, RotationModel.NewWriter, read. destruct (find (links f) WritePath) as [i|] eqn:Fi.
    - exists i, (List.length (contents f)). pose proof (G _ _ Fi) as Lt. cbn [fs file]. split; [|split; [|repeat split; lia]].
      + constructor; cbn [inode append]; unfold nfiles; rewrite ?Nat.sub_diag; try lia; try reflexivity; try discriminate; [rewrite Fi; now right|].
        exists (fun _ => [content f i]). split; [reflexivity|]. intros k Hk. assert (k = 0%nat) by lia. subst k. cbn. now rewrite app_nil_r.
      + split; [|intros k p K; destruct k; discriminate K]. left. cbn [List.length ino]. split; [exact Fi|]. unfold nfiles. lia.
    - exists (List.length (contents f)), (S (List.length (contents f))). unfold create. rewrite Fi. cbn [fs file]. split; [|split; [|repeat split; lia]].
      + assert (L : List.length (contents f ++ [[]]) = S (List.length (contents f))) by (rewrite app_length; cbn; lia).
        constructor; cbn [inode append contents links]; unfold nfiles; cbn [contents]; rewrite ?L, ?Nat.sub_diag; try lia; try reflexivity.
        * intros _ _. unfold content. cbn [contents pos]. rewrite app_nth2, Nat.sub_diag by lia. reflexivity.
        * right. now rewrite find_link, streq_refl.
        * exists (fun _ => [[]]). split; [reflexivity|]. intros k Hk. assert (k = 0%nat) by lia. subst k. cbn [ino]. unfold content. cbn [contents].
          rewrite app_nth2, Nat.sub_diag by lia. reflexivity.
      + split; [|intros k p K; destruct k; discriminate K]. left. cbn [List.length ino links]. rewrite find_link, streq_refl. split; [reflexivity|].
        unfold nfiles. cbn [contents]. rewrite app_length. cbn. lia.
  Qed.

  (** Files of other paths *)
  Lemma other_step : forall i0 n0 c0 s e s' o chunks, inv i0 n0 c0 (fs _ s) (file _ s) chunks -> creating s -> step s e = Some (s', o) ->
    (forall i, (i < n0)%nat -> i <> i0 -> content (fs _ s') i = content (fs _ s) i) /\
    (forall p, p <> WritePath -> ~ In p (archived o) -> ~ In p (removed o) -> find (links (fs _ s')) p = find (links (fs _ s)) p).
  Proof.
    intros i0 n0 c0 s e s' o chunks H Cr E.
    assert (Same : fs _ s' = fs _ s -> (forall i, (i < n0)%nat -> i <> i0 -> content (fs _ s') i = content (fs _ s) i) /\
      (forall p, p <> WritePath -> ~ In p (archived o) -> ~ In p (removed o) -> find (links (fs _ s')) p = find (links (fs _ s)) p)).
    { intros ->. auto. }
    destruct e; cbn [step RotationModel.step] in E.
    - unfold stepW in E. destruct (wp _ s); try discriminate E. injection E as <- <-. now apply Same.
    - unfold stepW in E. destruct (wp _ s); try discriminate E; try (injection E as <- <-; now apply Same).
      destruct (status _ s =? statusNormal); injection E as <- <-; now apply Same.
    - unfold stepW in E. unfold creating in Cr. destruct (wp _ s); try discriminate E.
      + destruct fails; [injection E as <- <-; now apply Same|]. destruct (find (links (fs _ s)) WritePath); injection E as <- <-; now apply Same.
      + destruct fails; [injection E as <- <-; now apply Same|]. unfold create in E. rewrite Cr in E. injection E as <- <-.
        cbn [setW setFile fs links]. split.
        * intros i Hi _. unfold content. cbn [contents]. rewrite app_nth1; [reflexivity|]. pose proof (inv_old _ _ _ _ _ _ H). lia.
        * intros p P _ _. rewrite find_link, streq_neq by congruence. reflexivity.
    - unfold stepW in E. destruct (wp _ s); try discriminate E. destruct (closed (file _ s)) eqn:Cl; [injection E as <- <-; now apply Same|].
      unfold fileWrite in E. cbv zeta in E. injection E as <- <-. cbn [setW setFile fs links]. split; [|auto].
      intros i Hi Ne. unfold content at 1. cbn [contents]. pose proof (inv_file _ _ _ _ _ _ H) as If. pose proof (inv_old _ _ _ _ _ _ H) as Is.
      rewrite setContent_nth; [|rewrite If; apply ino_lt; [exact Is|unfold nfiles; lia]].
      replace (Nat.eqb (inode (file _ s)) i) with false; [reflexivity|]. symmetry. apply Nat.eqb_neq. rewrite If. destruct (nfiles n0 (fs _ s) - 1)%nat; cbn [ino]; lia.
    - unfold stepW in E. destruct (wp _ s); try discriminate E. destruct answer as [[]|]; injection E as <- <-; now apply Same.
    - unfold stepR in E. destruct (rp _ s) as [| | | | |[|y l]|]; try discriminate E. destruct duration as [d|]; injection E as <- <-; [|now apply Same].
      destruct (0 <? d); now apply Same.
    - unfold stepR in E. destruct (rp _ s) as [| | | | |[|y l]|]; try discriminate E. destruct (rtimer _ s); try discriminate. injection E as <- <-; now apply Same.
    - unfold stepR in E. destruct (rp _ s) as [| | | | |[|y l]|]; try discriminate E. destruct next as [p|]; [|injection E as <- <-; now apply Same].
      destruct fails; [injection E as <- <-; now apply Same|]. destruct (rename WritePath hasDirectory (fs _ s) p) as [f|] eqn:R; [|injection E as <- <-; now apply Same].
      injection E as <- <-. cbn [setR setFile fs links archived removed flat_map app]. destruct (rename_links _ _ _ R) as (i & Fi & -> & _). split; [auto|].
      intros q Q A _. cbn [links]. rewrite find_link, find_unlink, !streq_neq; [reflexivity|congruence|]. intro X. apply A. now left.
    - unfold stepR in E. destruct (rp _ s) as [| | | | |[|y l]|]; try discriminate E. destruct archives; injection E as <- <-; now apply Same.
    - unfold stepR in E. destruct (rp _ s) as [| | | | |[|y l]|]; try discriminate E; [|injection E as <- <-; now apply Same].
      destruct (PurgeSet Max archives spare); injection E as <- <-; now apply Same.
    - unfold stepR in E. destruct (rp _ s) as [| | | | |[|y l]|]; try discriminate E. destruct fails; [injection E as <- <-; now apply Same|].
      destruct (find (links (fs _ s)) (Path y)) as [i|]; injection E as <- <-; [|now apply Same].
      cbn [setR setFile fs links archived removed flat_map app]. split; [auto|]. intros q Q _ R. cbn [links]. rewrite find_unlink, streq_neq; [reflexivity|].
      intro X. apply R. now left.
    - unfold stepW in E. destruct (wp _ s); try discriminate E. destruct (rp _ s); try discriminate; injection E as <- <-; now apply Same.
  Qed.
  Lemma other_run : forall i0 n0 c0 l s s' o chunks, inv i0 n0 c0 (fs _ s) (file _ s) chunks -> creating s -> run s l = Some (s', o) ->
    (forall i, (i < n0)%nat -> i <> i0 -> content (fs _ s') i = content (fs _ s) i) /\
    (forall p, p <> WritePath -> ~ In p (archived o) -> ~ In p (removed o) -> find (links (fs _ s')) p = find (links (fs _ s)) p).
  Proof.
    intros i0 n0 c0. induction l as [|e l IH]; intros s s' o chunks H Cr R.
    - cbn in R. injection R as <- <-. auto.
    - apply run_cons in R. destruct R as (s1 & o1 & o2 & E & R & ->). destruct (other_step _ _ _ _ _ _ _ _ H Cr E) as [A B].
      destruct (IH s1 s' o2 _ (inv_step _ _ _ _ _ _ _ _ H Cr E) (creating_step _ _ _ _ Cr E) R) as [C D]. split.
      + intros i Hi Ne. rewrite C, A by assumption. reflexivity.
      + intros p P. rewrite archived_app, removed_app. intros X Y. rewrite !in_app_iff in X, Y. rewrite D, B; tauto.
  Qed.

  (** What Write returns *)
  Definition unanswered (s : state Stat) : list nat :=
    match wp _ s with
    | WStart b | WClose b | WOpen b | WCreate b | WWrite b => [List.length b]
    | WCheck _ n _ | WUpdate _ n _ | WStore n _ => [n]
    | _ => []
    end.
  Lemma returned_step : forall s e s' o, opened s -> healthy _ e -> step s e = Some (s', o) ->
    returned o ++ unanswered s' = unanswered s ++ map (@List.length Z) (calls _ [e]).
  Proof.
    intros s e s' o Op He E. unfold opened, unanswered in *. destruct e; cbn [step RotationModel.step healthy] in E, He; subst.
    - unfold stepW in E. destruct (wp _ s) eqn:W; try discriminate E. injection E as <- <-. cbn. auto.
    - unfold stepW in E. destruct (wp _ s) eqn:W; try discriminate E.
      + injection E as <- <-. destruct (status _ s =? statusArchived); cbn; auto.
      + injection E as <- <-. cbn. auto.
      + destruct (status _ s =? statusNormal); injection E as <- <-; cbn; auto.
      + injection E as <- <-. cbn. auto.
    - unfold stepW in E. destruct (wp _ s) eqn:W; try discriminate E.
      + destruct (find (links (fs _ s)) WritePath); injection E as <- <-; cbn; auto.
      + unfold create in E. destruct (find (links (fs _ s)) WritePath); injection E as <- <-; cbn; auto.
    - unfold stepW in E. destruct (wp _ s) eqn:W; try discriminate E. rewrite Op in E. unfold fileWrite in E. cbv zeta in E. injection E as <- <-. cbn. auto.
    - unfold stepW in E. destruct (wp _ s) eqn:W; try discriminate E. destruct answer as [[]|]; injection E as <- <-; cbn; auto.
    - unfold stepR in E. destruct (rp _ s) as [| | | | |[|y l]|]; try discriminate E. destruct duration as [d|]; injection E as <- <-; [|cbn; rewrite app_nil_r; auto].
      destruct (0 <? d); cbn; rewrite app_nil_r; auto.
    - unfold stepR in E. destruct (rp _ s) as [| | | | |[|y l]|]; try discriminate E. destruct (rtimer _ s); try discriminate E. injection E as <- <-; cbn; rewrite app_nil_r; auto.
    - unfold stepR in E. destruct (rp _ s) as [| | | | |[|y l]|]; try discriminate E. destruct next as [p|]; [|injection E as <- <-; cbn; rewrite app_nil_r; auto].
      destruct fails; [injection E as <- <-; cbn; rewrite app_nil_r; auto|]. destruct (rename WritePath hasDirectory (fs _ s) p); injection E as <- <-; cbn; rewrite app_nil_r; auto.
    - unfold stepR in E. destruct (rp _ s) as [| | | | |[|y l]|]; try discriminate E. destruct archives; injection E as <- <-; cbn; rewrite app_nil_r; auto.
    - unfold stepR in E. destruct (rp _ s) as [| | | | |[|y l]|]; try discriminate E; [|injection E as <- <-; cbn; rewrite app_nil_r; auto].
      destruct (PurgeSet Max archives spare); injection E as <- <-; cbn; rewrite app_nil_r; auto.
    - unfold stepR in E. destruct (rp _ s) as [| | | | |[|y l]|]; try discriminate E. destruct fails; [injection E as <- <-; cbn; rewrite app_nil_r; auto|].
      destruct (find (links (fs _ s)) (Path y)); injection E as <- <-; cbn; rewrite app_nil_r; auto.
    - unfold stepW in E. destruct (wp _ s) eqn:W; try discriminate E. destruct (rp _ s); try discriminate; injection E as <- <-; cbn; auto.
  Qed.
  Lemma returned_run : forall l s s' o, opened s -> Forall (healthy _) l -> run s l = Some (s', o) ->
    returned o ++ unanswered s' = unanswered s ++ map (@List.length Z) (calls _ l).
  Proof.
    induction l as [|e l IH]; intros s s' o Op F R.
    - cbn in R. injection R as <- <-. cbn. now rewrite app_nil_r.
    - apply run_cons in R. destruct R as (s1 & o1 & o2 & E & R & ->). apply Forall_cons_iff in F. destruct F as [F1 F2].
      destruct (pending_step s e s1 o1 Op F1 E) as [Op1 _]. pose proof (returned_step s e s1 o1 Op F1 E) as P1. unfold returned in *. rewrite flat_map_app, <- app_assoc.
      rewrite (IH s1 s' o2 Op1 F2 R), app_assoc, P1, <- app_assoc. f_equal. unfold calls. cbn [flat_map]. now rewrite app_nil_r, map_app.
  Qed.

  (** What Write returns *)
  Definition Ans (c : list bytes) (r : list (nat * bool)) (w : list bytes) : Prop :=
    List.length r = List.length c /\ List.concat w = List.concat (map (fun x => firstn (fst (snd x)) (fst x)) (combine c r)) /\
    Forall (fun x => (fst (snd x) <= List.length (fst x))%nat /\ (snd (snd x) = false -> fst (snd x) = List.length (fst x))) (combine c r).
  Definition part (b : bytes) (n : nat) (err : bool) : Prop := (n <= List.length b)%nat /\ (err = false -> n = List.length b).
  Definition ans_inv (s : state Stat) (c : list bytes) (r : list (nat * bool)) (w : list bytes) : Prop :=
    match wp _ s with
    | WIdle | WDone => Ans c r w
    | WStart b | WClose b | WOpen b | WCreate b | WWrite b => exists c0, c = c0 ++ [b] /\ Ans c0 r w
    | WCheck b n err | WUpdate b n err => exists c0 w0, c = c0 ++ [b] /\ List.concat w = List.concat w0 ++ firstn n b /\ part b n err /\ Ans c0 r w0
    | WStore n err => exists b c0 w0, c = c0 ++ [b] /\ List.concat w = List.concat w0 ++ firstn n b /\ part b n err /\ Ans c0 r w0
    end.
  Lemma combine_snoc : forall (c : list bytes) (r : list (nat * bool)) x y, List.length r = List.length c -> combine (c ++ [x]) (r ++ [y]) = combine c r ++ [(x, y)].
  Proof. induction c as [|a c IH]; intros [|b r] x y L; try discriminate L; [reflexivity|]. cbn [app combine]. rewrite IH by (now injection L). reflexivity. Qed.
  Lemma Ans_snoc : forall c r w b n err w0, Ans c r w0 -> List.concat w = List.concat w0 ++ firstn n b -> part b n err -> Ans (c ++ [b]) (r ++ [(n, err)]) w.
  Proof.
    intros c r w b n err w0 (A & B & C) W P. unfold Ans. rewrite combine_snoc by exact A. rewrite !app_length, map_app, concat_app. split; [cbn; lia|]. split.
    - rewrite W, B. cbn. now rewrite app_nil_r.
    - apply Forall_app. split; [exact C|]. constructor; [exact P|constructor].
  Qed.
  Lemma part_more : forall b n, part b n false -> part b n true.
  Proof. intros b n [A B]. split; [exact A|discriminate]. Qed.
  Lemma results_app : forall o o', results (o ++ o') = results o ++ results o'.
  Proof. intros. apply flat_map_app. Qed.
  Lemma ans_step : forall s e s' o c r w, ans_inv s c r w -> step s e = Some (s', o) -> ans_inv s' (c ++ calls _ [e]) (r ++ results o) (w ++ wrote o).
  Proof.
    intros s e s' o c r w H E. destruct e; cbn [step RotationModel.step] in E.
    6-11: assert (X : wp _ s' = wp _ s /\ results o = [] /\ wrote o = []);
      [unfold stepR in E; repeat match type of E with
        | Some _ = Some _ => injection E as <- <-
        | context [match ?x with _ => _ end] => destruct x eqn:?; try discriminate E
        end; try match goal with |- context [if ?b then _ else _] => destruct b end; auto
      |destruct X as (X1 & X2 & X3); rewrite X2, X3; cbn; rewrite !app_nil_r; unfold ans_inv; rewrite X1; exact H].
    - unfold stepW in E. unfold ans_inv in H. destruct (wp _ s) eqn:W; try discriminate E. injection E as <- <-. cbn. rewrite !app_nil_r. eauto.
    - unfold stepW in E. unfold ans_inv in H. destruct (wp _ s) eqn:W; try discriminate E.
      + injection E as <- <-. unfold ans_inv. cbn. rewrite !app_nil_r. destruct (status _ s =? statusArchived); exact H.
      + injection E as <- <-. unfold ans_inv. cbn. rewrite !app_nil_r. exact H.
      + destruct H as (c0 & w0 & -> & Hw & P & A). destruct (status _ s =? statusNormal); injection E as <- <-; unfold ans_inv; cbn; rewrite !app_nil_r.
        * exists c0, w0. auto.
        * now apply Ans_snoc with w0.
      + destruct H as (b & c0 & w0 & -> & Hw & P & A). injection E as <- <-. unfold ans_inv. cbn. rewrite !app_nil_r. now apply Ans_snoc with w0.
    - unfold stepW in E. unfold ans_inv in H. destruct (wp _ s) eqn:W; try discriminate E;
        destruct fails; try (injection E as <- <-; unfold ans_inv; cbn; rewrite !app_nil_r; exact H).
      + destruct (find (links (fs _ s)) WritePath); injection E as <- <-; unfold ans_inv; cbn; rewrite !app_nil_r; exact H.
      + unfold create in E. destruct (find (links (fs _ s)) WritePath); injection E as <- <-; unfold ans_inv; cbn; rewrite !app_nil_r; exact H.
    - unfold stepW in E. unfold ans_inv in H. destruct (wp _ s) eqn:W; try discriminate E. destruct H as (c0 & -> & A). destruct (closed (file _ s)).
      + injection E as <- <-. unfold ans_inv. cbn. rewrite !app_nil_r. exists c0, w. split; [reflexivity|]. split; [now rewrite app_nil_r|]. split; [split; [lia|discriminate]|exact A].
      + unfold fileWrite in E. cbv zeta in E. injection E as <- <-. unfold ans_inv. cbn. rewrite !app_nil_r. exists c0, w. split; [reflexivity|]. rewrite concat_app. cbn. rewrite app_nil_r.
        destruct fails as [n|].
        * split; [f_equal; rewrite firstn_length; destruct (Nat.min_spec n (List.length buf)) as [[? ->]|[? ->]]; [reflexivity|now rewrite firstn_all, firstn_all2]|].
          split; [split; [rewrite firstn_length; lia|discriminate]|exact A].
        * split; [now rewrite firstn_all|]. split; [split; [lia|reflexivity]|exact A].
    - unfold stepW in E. unfold ans_inv in H. destruct (wp _ s) eqn:W; try discriminate E. destruct H as (c0 & w0 & -> & Hw & P & A).
      destruct answer as [[]|]; injection E as <- <-; unfold ans_inv; cbn; rewrite !app_nil_r.
      + exists buf, c0, w0. auto.
      + now apply Ans_snoc with w0.
      + apply Ans_snoc with w0; try assumption. destruct err; [exact P|now apply part_more].
    - unfold stepW in E. unfold ans_inv in H. destruct (wp _ s) eqn:W; try discriminate E. destruct (rp _ s); try discriminate E; injection E as <- <-; unfold ans_inv; cbn; rewrite !app_nil_r; exact H.
  Qed.
  Lemma ans_run : forall l s s' o c r w, ans_inv s c r w -> run s l = Some (s', o) -> ans_inv s' (c ++ calls _ l) (r ++ results o) (w ++ wrote o).
  Proof.
    induction l as [|e l IH]; intros s s' o c r w H R.
    - cbn in R. injection R as <- <-. cbn. now rewrite !app_nil_r.
    - apply run_cons in R. destruct R as (s1 & o1 & o2 & E & R & ->). rewrite results_app, wrote_app, !app_assoc.
      change (calls Stat (e :: l)) with (calls Stat ([e] ++ l)). unfold calls. rewrite flat_map_app, app_assoc. apply (IH s1); [|exact R]. now apply (ans_step s).
  Qed.

  (** Rotations *)
  Definition quiet (s : state Stat) : Prop := rtimer _ s = NoTimer /\ match rp _ s with RTop | RSelect | RGone => True | _ => False end.
  Ltac cases E := unfold stepW, stepR in E;
    repeat match type of E with
    | Some _ = Some _ => injection E as <- <-
    | match rp _ ?s with _ => _ end = _ => let W := fresh "R" in destruct (rp _ s) as [| | | |? ?|[|? ?]|] eqn:W; try discriminate E
    | match wp _ ?s with _ => _ end = _ => let W := fresh "W" in destruct (wp _ s) eqn:W; try discriminate E
    | context [match ?x with _ => _ end] => destruct x eqn:?; try discriminate E
    end.
  Lemma quiet_step : forall s e s' o, quiet s -> no_timer _ e -> step s e = Some (s', o) -> quiet s' /\ archived o = [].
  Proof.
    intros s e s' o [Q1 Q2] N E. unfold quiet.
    destruct e; cbn [step RotationModel.step no_timer] in E, N; cases E; cbn [setW setR setFile setStat setStatus setTimer rtimer rp archived flat_map app];
      rewrite ?R in *; try (split; [split; assumption || exact I|reflexivity]); try contradiction; try (exfalso; discriminate || lia).
    destruct (Z.ltb_spec 0 z); [lia|]. auto.
  Qed.
  Lemma quiet_run : forall l s s' o, quiet s -> Forall (no_timer _) l -> run s l = Some (s', o) -> archived o = [].
  Proof.
    induction l as [|e l IH]; intros s s' o Q F R.
    - cbn in R. now injection R as <- <-.
    - apply run_cons in R. destruct R as (s1 & o1 & o2 & E & R & ->). apply Forall_cons_iff in F. destruct F as [F1 F2].
      destruct (quiet_step s e s1 o1 Q F1 E) as [Q1 A1]. now rewrite archived_app, A1, (IH s1 s' o2 Q1 F2 R).
  Qed.

  (** The status *)
  Definition settled (s : state Stat) : Prop := status _ s <> statusNormal /\ match wp _ s with WUpdate _ _ _ => False | _ => True end.
  Lemma settled_step : forall s e s' o, settled s -> step s e = Some (s', o) -> settled s' /\ updates o = [].
  Proof.
    intros s e s' o [Q1 Q2] E. unfold settled.
    destruct e; cbn [step RotationModel.step] in E; cases E; cbn [setW setR setFile setStat setStatus setTimer status wp updates flat_map app];
      rewrite ?W in *; try contradiction; try (split; [split; [assumption || discriminate|exact I || assumption]|reflexivity]).
    all: try (exfalso; apply Z.eqb_eq in Heqb; contradiction).
    - destruct (status _ s =? statusArchived); auto.
    - destruct (0 <? z); auto.
  Qed.
  Lemma settled_run : forall l s s' o, settled s -> run s l = Some (s', o) -> settled s' /\ updates o = [].
  Proof.
    induction l as [|e l IH]; intros s s' o Q R.
    - cbn in R. now injection R as <- <-.
    - apply run_cons in R. destruct R as (s1 & o1 & o2 & E & R & ->).
      destruct (settled_step s e s1 o1 Q E) as [Q1 A1]. destruct (IH s1 s' o2 Q1 R) as [Q2 A2]. split; [exact Q2|]. unfold updates in *. now rewrite flat_map_app, A1, A2.
  Qed.

  Definition over (s : state Stat) : Prop := status _ s = statusArchived /\ match wp _ s with WUpdate _ _ _ | WStore _ _ => False | _ => True end.
  Definition unopened (s : state Stat) : nat := match wp _ s with WStart _ | WClose _ | WOpen _ | WCreate _ => 1 | _ => 0 end.
  Lemma over_step : forall s e s' o, over s -> healthy _ e -> step s e = Some (s', o) ->
    over s' /\ (List.length (reopened o) + unopened s' = unopened s + List.length (calls _ [e]))%nat.
  Proof.
    intros s e s' o [Q1 Q2] He E. unfold over, unopened.
    destruct e; cbn [step RotationModel.step healthy] in E, He; subst; cases E; cbn [setW setR setFile setStat setStatus setTimer status wp reopened calls flat_map app List.length];
      rewrite ?W, ?Q1 in *; try contradiction; try discriminate; try (split; [split; [assumption || reflexivity|exact I || assumption]|reflexivity || lia]).
    destruct (0 <? z); cbn [setTimer status wp]; (split; [split; assumption|lia]).
  Qed.
  Lemma over_run : forall l s s' o, over s -> Forall (healthy _) l -> run s l = Some (s', o) ->
    over s' /\ (List.length (reopened o) + unopened s' = unopened s + List.length (calls _ l))%nat.
  Proof.
    induction l as [|e l IH]; intros s s' o Q F R.
    - cbn in R. injection R as <- <-. cbn. split; [exact Q|lia].
    - apply run_cons in R. destruct R as (s1 & o1 & o2 & E & R & ->). apply Forall_cons_iff in F. destruct F as [F1 F2].
      destruct (over_step s e s1 o1 Q F1 E) as [Q1 A1]. destruct (IH s1 s' o2 Q1 F2 R) as [Q2 A2]. split; [exact Q2|].
      replace (calls _ (e :: l)) with (calls _ [e] ++ calls _ l) by (unfold calls; cbn [flat_map]; now rewrite app_nil_r). unfold reopened in *. rewrite flat_map_app, !app_length. lia.
  Qed.
End Rotation.

(** * Arithmetic *)
Lemma int64_id : forall z, - 2 ^ 63 <= z < 2 ^ 63 -> int64 z = z.
Proof. intros z H. unfold int64. rewrite Z.mod_small; lia. Qed.

Lemma same_nth : forall A (l l' : list A), (forall k, nth_error l k = nth_error l' k) -> l = l'.
Proof.
  induction l as [|x l IH]; intros [|y l'] H; try reflexivity; pose proof (H 0%nat) as H0; try discriminate H0.
  injection H0 as ->. f_equal. apply IH. intro k. exact (H (S k)).
Qed.

(** * Archives *)
Lemma statAll_ok : forall statSize l r, statAll statSize l = Some r ->
  map Path r = map tfile l /\ map ArchivedAt r = map ttime l /\ Forall (fun x => statSize (Path x) = Some (Size x)) r.
Proof.
  intros statSize. induction l as [|x l IH]; intros r E; cbn [statAll] in E.
  - injection E as <-. auto.
  - destruct (statSize (tfile x)) as [n|] eqn:S; [|discriminate]. cbn [obind] in E. destruct (statAll statSize l) as [r'|]; [|discriminate].
    cbn [obind] in E. injection E as <-. destruct (IH r' eq_refl) as (A & B & C). cbn [map Path ArchivedAt]. rewrite A, B. auto.
Qed.
Lemma sorted_times : forall l r, map ArchivedAt r = map ttime l -> StronglySorted (fun x y => ttime x <= ttime y) l -> by_time r.
Proof.
  intros l r E H. unfold by_time. revert r E. induction H as [|x l H IH F]; intros [|y r] E; try discriminate E; constructor.
  - cbn [map] in E. injection E as _ E. now apply IH.
  - cbn [map] in E. injection E as E0 E. rewrite E0. clear - E F. revert r E. induction F as [|z l F1 F2 IH]; intros [|w r] E; try discriminate E; constructor.
    + cbn [map] in E. injection E as -> _. exact F1.
    + cbn [map] in E. injection E as _ E. now apply IH.
Qed.
Lemma lenZ_firstn : forall A n (l : list A), 0 <= n <= lenZ l -> lenZ (firstn (Z.to_nat n) l) = n.
Proof. intros A n l H. unfold lenZ in *. rewrite firstn_length. lia. Qed.
Lemma sorted_split : forall (l : list Archive) n, by_time l -> forall x y, In x (firstn n l) -> In y (skipn n l) -> ArchivedAt x <= ArchivedAt y.
Proof.
  intros l n H. revert n. induction H as [|z l H IH F]; intros [|n] x y Hx Hy; cbn [firstn skipn] in *; try destruct Hx.
  - subst z. rewrite Forall_forall in F. apply F. rewrite <- (firstn_skipn n l). apply in_or_app. now right.
  - eapply IH; eassumption.
Qed.
Lemma purge_keeps : forall Max l spare, 0 <= Max -> lenZ l < 2 ^ 63 -> by_time l ->
  exists purge, PurgeSet Max l spare = Some purge /\ keeps_newest Max l purge.
Proof.
  intros Max l spare H L T. assert (N : 0 <= lenZ l) by (unfold lenZ; lia). unfold PurgeSet. destruct (Z.leb_spec (lenZ l) Max) as [C|C].
  - exists []. split; [reflexivity|]. exists l. split; [reflexivity|]. split; [lia|]. intros x y [].
  - cbv zeta. rewrite int64_id by lia. assert (0 <= lenZ spare) by (unfold lenZ; lia).
    replace (0 <=? lenZ l - Max) with true by lia. replace (lenZ l - Max <=? lenZ l + lenZ spare) with true by lia. cbn [andb].
    exists (firstn (Z.to_nat (lenZ l - Max)) l). split.
    + f_equal. rewrite firstn_app. replace (_ - List.length l)%nat with 0%nat by (unfold lenZ; lia). apply app_nil_r.
    + exists (skipn (Z.to_nat (lenZ l - Max)) l). rewrite firstn_skipn. split; [reflexivity|]. split.
      * unfold lenZ in *. rewrite skipn_length. lia.
      * now apply sorted_split.
Qed.
