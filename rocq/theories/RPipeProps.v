(** C136: an async writer in front of a rotating one. *)
From Verif Require Import Base RotationModel RotationSpec RPipeSpec RPipeProofs.
From Verif Require AsyncModel AsyncSpec AsyncProofs AsyncProps RotationProofs RotationProps PipeProps.
Import AsyncModel(CloseCall, GTimer, GEmpty, GTake, GDone, GTakeLast, Alloc, Change, WCall, WSend, WDrop, WOk, WError, GSelect, GOver).
Import AsyncSpec(prefix, accepted).

Section Claims.
  Variable B : bool.
  Variable n : nat.
  Variable WritePath : bytes.
  Variable Stat : Type.
  Variable noStat : Stat.
  Variable Max : Z.
  Variable hasDirectory : bytes -> bool.
  Notation step := (RPipeModel.step B n WritePath Stat Max hasDirectory).
  Notation run := (RPipeModel.run B n WritePath Stat Max hasDirectory).
  Notation start := (RPipeModel.start WritePath Stat noStat).
  Notation NewWriter := (RotationModel.NewWriter WritePath Stat noStat).
  Notation asyncs := (asyncs Stat).
  Notation rots := (rots Stat).

  Lemma run_both : forall f l s o, run (start f) l = Some (s, o) ->
    AsyncModel.run B n AsyncModel.new (asyncs l) = Some (qw _ s) /\ RotationModel.run WritePath Stat Max hasDirectory (NewWriter f) (rots l) = Some (qr _ s, o).
  Proof.
    intros f l s o R. split; [exact (run_async B n WritePath Stat Max hasDirectory _ _ _ _ R)|exact (run_rot B n WritePath Stat Max hasDirectory _ _ _ _ R)].
  Qed.
  (** For every interleaving of the callers, of the goroutine within Write and of the goroutine that archives, and whatever the operating system answers: the
      rotating writer is called with the first of the records that the async writer has accepted, in that order.  Between two calls, of each of them it has written
      what it returned, and all of it if it returned no error. *)
  Theorem C136_records : forall f l s o, run (start f) l = Some (s, o) ->
    exists p rest, accepted (asyncs l) = p ++ rest /\ p = calls _ (rots l) /\
      (between _ s -> p = AsyncSpec.written (asyncs l) /\ List.length (results o) = List.length p /\
        List.concat (wrote o) = List.concat (map (fun x => firstn (fst (snd x)) (fst x)) (combine p (results o))) /\
        Forall (fun x => snd (snd x) = false -> fst (snd x) = List.length (fst x)) (combine p (results o))).
  Proof.
    intros f l s o R. destruct (run_both _ _ _ _ R) as [A Q]. destruct (flows_run B n WritePath Stat noStat Max hasDirectory _ _ _ _ R) as [F1 F2].
    pose proof (AsyncProofs.i_flow _ _ _ (AsyncProofs.inv_run _ _ _ _ A)) as Fl.
    assert (E : exists rest, accepted (asyncs l) = calls _ (rots l) ++ rest).
    { rewrite F1, Fl. destruct (busy Stat (qr _ s)); [|rewrite app_nil_r; eexists; reflexivity]. unfold heldBytes, taken in *. unfold AsyncProofs.held.
      destruct (AsyncModel.g (qw _ s)); try (destruct (F2 eq_refl eq_refl)); exists (AsyncProofs.contents (qw _ s) (AsyncModel.queue (qw _ s))); rewrite <- app_assoc; reflexivity. }
    destruct E as [rest E]. exists (calls _ (rots l)), rest. split; [exact E|]. split; [reflexivity|]. intro Bt.
    destruct (RotationProps.C36_returns WritePath Stat noStat Max hasDirectory f _ _ _ Q Bt) as (R1 & R2 & R3). split; [|split; [exact R1|split; [exact R2|]]].
    - assert (N : busy Stat (qr _ s) = false) by (unfold busy; destruct Bt as [-> | ->]; reflexivity). rewrite N, app_nil_r in F1. exact F1.
    - eapply Forall_impl; [|exact R3]. intros x [_ X]. exact X.
  Qed.
  (** Without errors and with new archive names: the archives, in the order in which they were made, and the current file contain the file that was there and these
      records, each record in one piece in one file. *)
  Theorem C136_files : forall f l s o, good_fs f -> Forall (healthy _) (rots l) -> new_names _ WritePath Max hasDirectory (NewWriter f) (rots l) ->
    run (start f) l = Some (s, o) -> between _ s -> ~ In WritePath (removed o) ->
    exists p gs g, prefix p (accepted (asyncs l)) /\ p = AsyncSpec.written (asyncs l) /\
      List.concat (gs ++ [g]) = read f WritePath :: p /\ List.length gs = List.length (archived o) /\
      (forall k q h, nth_error (archived o) k = Some q -> nth_error gs k = Some h -> In q (removed o) \/ read (fs _ (qr _ s)) q = List.concat h) /\
      read (fs _ (qr _ s)) WritePath = List.concat g.
  Proof.
    intros f l s o G H Nn R Bt NR. destruct (C136_records _ _ _ _ R) as (p & rest & E & Ep & P). destruct (P Bt) as [Ew _]. destruct (run_both _ _ _ _ R) as [_ Q].
    destruct (RotationProps.C36_bytes WritePath Stat noStat Max hasDirectory f _ _ _ G H Nn Q Bt NR) as (gs & g & G1 & G2 & G3 & G4).
    exists p, gs, g. rewrite <- Ep in G1. split; [exists rest; exact E|auto 10].
  Qed.
  (** Whenever the process ends: another one can begin with the files that are left, and all this holds of it. *)
  Theorem C136_restart : forall f l s o, good_fs f -> run (start f) l = Some (s, o) -> good_fs (fs _ (qr _ s)).
  Proof.
    intros f l s o G R. destruct (run_both _ _ _ _ R) as [_ Q]. apply (good_rrun WritePath Stat Max hasDirectory _ _ _ _ Q). exact (good_start WritePath Stat noStat f G).
  Qed.
  (** When Close of the async writer has returned it has closed the other one; from then on no file changes. *)
  Theorem C136_closed : forall f l s o more s' o', run (start f) l = Some (s, o) -> AsyncModel.closed (qw _ s) = true -> run s more = Some (s', o') ->
    closed (file _ (qr _ s)) = true /\ In (QClose _) l /\ o' = [] /\ fs _ (qr _ s') = fs _ (qr _ s).
  Proof.
    intros f l s o more s' o' R C M.
    assert (X : wp _ (qr _ s) = WDone /\ rp _ (qr _ s) = RGone /\ closed (file _ (qr _ s)) = true /\ In (QClose _) l).
    { clear M. revert s o R C. induction l as [|e l IH] using rev_ind; intros s o R C; [injection R as <- <-; discriminate C|].
      destruct (run_snoc B n WritePath Stat Max hasDirectory _ _ _ _ _ R) as (s1 & o1 & o2 & R1 & E & _).
      assert (Y : AsyncModel.closed (qw _ s1) = true \/ e = QClose _).
      { destruct e as [e|rec|e|e rec r|]; [| | | |right; reflexivity]; left.
        - destruct e; cbn [RPipeModel.step] in E; try discriminate E;
          match type of E with obind ?x _ = _ => destruct x as [w9|] eqn:A; [|discriminate E] end; cbn [obind] in E; injection E as <- <-; cbn [qw] in C; rewrite <- C;
          cbn [AsyncModel.step] in A;
          repeat match type of A with match ?y with _ => _ end = Some _ => destruct y; try discriminate A | (if ?y then _ else _) = Some _ => destruct y; try discriminate A end; injection A as <-; reflexivity.
        - cbn [RPipeModel.step] in E. destruct (taken (qw _ s1)); [|discriminate E]. cbn [obind] in E. destruct (AsyncModel.bytes_eqb _ _); [|discriminate E].
          destruct (RotationModel.step _ _ _ _ _ _) as [[x ox]|]; [|discriminate E]. cbn [obind] in E. injection E as <- <-. exact C.
        - assert (Q : exists x, s = mkPipe _ (qw _ s1) x).
          { destruct e; cbn [RPipeModel.step] in E; try discriminate E; destruct (RotationModel.step _ _ _ _ _ _) as [[x ox]|]; try discriminate E; cbn [obind] in E;
            destruct (sameResult _ _); try discriminate E; injection E as <- <-; exists x; reflexivity. }
          destruct Q as [x ->]. exact C.
        - cbn [RPipeModel.step] in E. destruct (RotationModel.step _ _ _ _ _ _) as [[x ox]|]; [|discriminate E]. cbn [obind] in E. destruct (sameResult _ _); [|discriminate E].
          destruct (AsyncModel.step B n (qw _ s1) (AsyncModel.GWrite rec r)) as [w|] eqn:A; [|discriminate E]. cbn [obind] in E. injection E as <- <-. cbn [qw] in C. rewrite <- C. cbn [AsyncModel.step] in A.
          repeat match type of A with match ?y with _ => _ end = Some _ => destruct y; try discriminate A | (if ?y then _ else _) = Some _ => destruct y; try discriminate A end; injection A as <-; reflexivity. }
      destruct Y as [Y| ->].
      - destruct (IH s1 o1 R1 Y) as (W & Rg & Cl & I).
        assert (R2 : run s1 [e] = Some (s, o2)) by (cbn [RPipeModel.run]; rewrite E; cbn [obind]; now rewrite app_nil_r).
        destruct (done_run B n WritePath Stat Max hasDirectory _ _ _ _ W Rg R2) as [-> _]. repeat split; auto. apply in_or_app; auto.
      - cbn [RPipeModel.step] in E. destruct (AsyncModel.step B n (qw _ s1) AsyncModel.CloseEnd) as [w|]; [|discriminate E]. cbn [obind] in E.
        destruct (RotationModel.step WritePath Stat Max hasDirectory (qr _ s1) (EClose _)) as [[x ox]|] eqn:X; [|discriminate E]. cbn [obind] in E. injection E as <- <-.
        destruct (rclose_busy WritePath Stat Max hasDirectory _ _ _ X) as (_ & _ & W & Rg & _ & _ & Cl). cbn [qr]. repeat split; auto. apply in_or_app. right. left. reflexivity. }
    destruct X as (W & Rg & Cl & I). destruct (done_run B n WritePath Stat Max hasDirectory _ _ _ _ W Rg M) as [Q1 Q2]. repeat split; auto. now rewrite Q1.
  Qed.
  (** When the goroutine has ended after Close was called and the second was not over: every record accepted before is written, if there were no errors. *)
  Theorem C136_close_partial : forall f a b s o, good_fs f -> ~ In (QAsync _ CloseCall) a -> ~ In (QAsync _ GTimer) b ->
    run (start f) (a ++ QAsync _ CloseCall :: b) = Some (s, o) -> AsyncModel.closed (qw _ s) = true -> Forall (healthy _) (rots (a ++ QAsync _ CloseCall :: b)) ->
    prefix (accepted (asyncs a)) (wrote o).
  Proof.
    intros f a b s o Gf Na Nt R C H. destruct (run_both _ _ _ _ R) as [A Q]. pose proof (PipeProps.closed_over B n _ _ A C) as Ov.
    destruct (flows_run B n WritePath Stat noStat Max hasDirectory _ _ _ _ R) as [F1 F2].
    assert (Bt : busy Stat (qr _ s) = false).
    { destruct (busy Stat (qr _ s)) eqn:Y; [|reflexivity]. exfalso. apply F2; [reflexivity|]. unfold taken. now rewrite Ov. }
    assert (W : wrote o = AsyncSpec.written (asyncs (a ++ QAsync _ CloseCall :: b))).
    { rewrite Bt, app_nil_r in F1. rewrite <- F1. apply (RotationProps.C36_records WritePath Stat noStat Max hasDirectory f _ _ _ Gf H Q).
      unfold at_rest. unfold busy in Bt. destruct (wp _ (qr _ s)); try discriminate Bt; auto. }
    assert (Nt' : ~ In GTimer (asyncs (a ++ QAsync _ CloseCall :: b))).
    { rewrite asyncs_app. intro I. apply in_app_or in I. destruct I as [I|I].
      - rewrite asyncs_app, AsyncProofs.run_app in A. destruct (AsyncModel.run B n AsyncModel.new (asyncs a)) as [w0|] eqn:E0; [|discriminate A].
        assert (Nc : ~ In CloseCall (asyncs a)). { intro K. apply asyncs_in in K. destruct K as [K|[(? & ? & K)|K]]; [exact (Na K)|discriminate K|discriminate K]. }
        exact (proj1 (timer_after B n _ Nc _ E0) I).
      - apply asyncs_in in I. destruct I as [[I|I]|[(? & ? & K)|K]]; [discriminate I|exact (Nt I)|discriminate K|discriminate K]. }
    destruct (AsyncProps.C51_close_partial B n _ _ A Ov) as [T|[[r P]|(x & y & E & Qe & I)]]; [destruct (Nt' T)|destruct (no_panic B n WritePath Stat Max hasDirectory _ _ _ _ r R P)|].
    destruct (asyncs_split _ _ _ _ _ E ltac:(discriminate) ltac:(discriminate)) as (x' & y' & E' & <- & <-).
    assert (Px : exists z, x' = a ++ z).
    { assert (I' : In (QAsync _ CloseCall) x'). { apply asyncs_in in I. destruct I as [I|[(? & ? & K)|K]]; [exact I|discriminate K|discriminate K]. }
      clear - E' Na I'. revert x' E' I'. induction a as [|p a IHa]; intros x' E' I'; [exists x'; reflexivity|]. destruct x' as [|q x']; [destruct I'|]. cbn [app] in E'. injection E' as -> E'.
      destruct (IHa ltac:(intro K; apply Na; right; exact K) x' E') as [z ->]; [|exists z; reflexivity]. destruct I' as [K|K]; [destruct Na; left; exact K|exact K]. }
    destruct Px as [z ->]. rewrite W. rewrite E' in A |- *. clear E' E W. rewrite asyncs_app in A. rewrite (asyncs_app Stat (a ++ z)). unfold AsyncSpec.written. rewrite flat_map_app.
    fold (AsyncSpec.written (asyncs (a ++ z))). rewrite <- Qe. rewrite AsyncProofs.run_app in A. destruct (AsyncModel.run B n AsyncModel.new (asyncs (a ++ z))) as [w1|] eqn:A1; [|discriminate A].
    rewrite (asyncs_app Stat a z) in A1 |- *. destruct (PipeProps.accepted_app B n _ _ _ A1) as [rest ->]. eexists. symmetry. apply app_assoc.
  Qed.
  (** ... and found in a file, if no archive was removed and the names of the archives are new. *)
  Theorem C136_found_partial : forall f a b s o r, good_fs f -> ~ In (QAsync _ CloseCall) a -> ~ In (QAsync _ GTimer) b ->
    let l := a ++ QAsync _ CloseCall :: b in
    run (start f) l = Some (s, o) -> AsyncModel.closed (qw _ s) = true -> Forall (healthy _) (rots l) ->
    new_names _ WritePath Max hasDirectory (NewWriter f) (rots l) -> removed o = [] ->
    In r (accepted (asyncs a)) -> exists p x y, read (fs _ (qr _ s)) p = x ++ r ++ y.
  Proof.
    intros f a b s o r Gf Na Nt l R C H Nn Rm I. destruct (C136_close_partial f a b s o Gf Na Nt R C H) as [rest Wr].
    destruct (run_both _ _ _ _ R) as [A Q]. pose proof (PipeProps.closed_over B n _ _ A C) as Ov. destruct (flows_run B n WritePath Stat noStat Max hasDirectory _ _ _ _ R) as [F1 F2].
    assert (Rest : at_rest _ (qr _ s)).
    { unfold at_rest. destruct (busy Stat (qr _ s)) eqn:Y; [exfalso; apply F2; [reflexivity|]; unfold taken; now rewrite Ov|]. unfold busy in Y. destruct (wp _ (qr _ s)); try discriminate Y; auto. }
    destruct (RotationProps.C36_records WritePath Stat noStat Max hasDirectory f _ _ _ Gf H Q Rest) as [Wc _].
    destruct (RotationProps.C36_kept WritePath Stat noStat Max hasDirectory f _ _ _ Gf H Nn Q Rest Rm) as (gs & G1 & G2).
    assert (Ig : In r (List.concat gs)) by (rewrite G1; right; rewrite <- Wc, Wr; apply in_or_app; left; exact I).
    apply in_concat in Ig. destruct Ig as (g & Gg & Rg). apply In_nth_error in Gg. destruct Gg as [k K].
    assert (Kp : nth_error (map (read (fs _ (qr _ s))) (archived o ++ [WritePath])) k = Some (List.concat g)) by (rewrite G2; exact (map_nth_error (@List.concat Z) k gs K)).
    rewrite nth_error_map in Kp. destruct (nth_error (archived o ++ [WritePath]) k) as [p|]; [|discriminate Kp]. cbn [option_map] in Kp. injection Kp as Kp.
    apply in_split in Rg. destruct Rg as (g1 & g2 & ->). exists p, (List.concat g1), (List.concat g2). rewrite Kp, concat_app. reflexivity.
  Qed.
  (** As long as the goroutine is in its loop and the operating system reports no errors, it can write all that was accepted, with no help from anybody. *)
  Theorem C136_drains : forall f l s o, good_fs f -> Forall (healthy _) (rots l) -> run (start f) l = Some (s, o) -> AsyncModel.g (qw _ s) = GSelect ->
    exists l' s' o', Forall (own _) l' /\ run (start f) (l ++ l') = Some (s', o ++ o') /\ accepted (asyncs l) = wrote (o ++ o') /\ Forall (fun x => snd x = false) (results o').
  Proof.
    intros f l s o Gf H R Gs. destruct (run_both _ _ _ _ R) as [A Q]. destruct (flows_run B n WritePath Stat noStat Max hasDirectory _ _ _ _ R) as [F1 F2].
    assert (Nb : busy Stat (qr _ s) = false). { destruct (busy Stat (qr _ s)) eqn:Y; [|reflexivity]. exfalso. apply F2; [reflexivity|]. unfold taken. now rewrite Gs. }
    assert (Wi : wp _ (qr _ s) = WIdle).
    { unfold busy in Nb. destruct (wp _ (qr _ s)) eqn:W; try discriminate Nb; [reflexivity|]. exfalso.
      assert (X : AsyncModel.g (qw _ s) = GOver) by (apply (done_over B n WritePath Stat Max hasDirectory _ _ _ _ R); [rewrite start_idle; discriminate|exact W]). congruence. }
    assert (Op : closed (file _ (qr _ s)) = false).
    { destruct (RotationProofs.start_inv WritePath Stat noStat f Gf) as (i0 & n0 & _ & _ & _ & Op & _).
      assert (X : forall l x x' o, RotationProofs.opened Stat x -> Forall (healthy _) l -> RotationModel.run WritePath Stat Max hasDirectory x l = Some (x', o) -> RotationProofs.opened Stat x').
      { clear. induction l as [|e l IH]; intros x x' o Op F R; [injection R as <- <-; exact Op|]. apply RotationProofs.run_cons in R. destruct R as (x1 & o1 & o2 & E & R & ->).
        apply Forall_cons_iff in F. destruct F as [Fe Fl]. exact (IH _ _ _ (proj1 (RotationProofs.pending_step _ _ _ _ _ _ _ _ Op Fe E)) Fl R). }
      pose proof (X _ _ _ _ Op H Q) as Y. unfold RotationProofs.opened in Y. rewrite Wi in Y. exact Y. }
    assert (Wr : wrote o = calls _ (rots l)).
    { apply (RotationProps.C36_records WritePath Stat noStat Max hasDirectory f _ _ _ Gf H Q). left. exact Wi. }
    pose proof (AsyncProofs.i_flow _ _ _ (AsyncProofs.inv_run _ _ _ _ A)) as Fl. unfold AsyncProofs.held in Fl. rewrite Gs in Fl. rewrite Nb, app_nil_r in F1. cbn [app] in Fl.
    assert (X : forall q s, AsyncModel.queue (qw _ s) = q -> AsyncModel.g (qw _ s) = GSelect -> wp _ (qr _ s) = WIdle -> closed (file _ (qr _ s)) = false ->
      exists l' s' o', Forall (own Stat) l' /\ run s l' = Some (s', o') /\ wrote o' = AsyncProofs.contents (qw _ s) q /\ Forall (fun x => snd x = false) (results o')).
    { clear. induction q as [|b q IH]; intros s Eq G W C; [exists [], s, []; repeat split; constructor|].
      set (w1 := AsyncModel.mkWriter (AsyncModel.heap (qw _ s)) (AsyncModel.callers (qw _ s)) q (AsyncModel.GWriting b) (AsyncModel.ws (qw _ s)) (AsyncModel.cancelled (qw _ s)) (AsyncModel.closed (qw _ s))).
      assert (E1 : step s (QAsync _ GTake) = Some (mkPipe _ w1 (qr _ s), [])) by (cbn [RPipeModel.step AsyncModel.step]; rewrite G, Eq; reflexivity).
      destruct (writes B n WritePath Stat Max hasDirectory w1 (qr _ s) b eq_refl W C) as (l1 & x1 & o1 & L1 & R1 & W1 & S1 & I1 & C1 & _).
      match type of R1 with _ = Some (?p, _) => destruct (IH p eq_refl eq_refl I1 C1) as (l2 & s2 & o2 & L2 & R2 & W2 & S2) end.
      exists (QAsync _ GTake :: l1 ++ l2), s2, (o1 ++ o2). split; [constructor; [exact Logic.I|apply Forall_app; auto]|]. split; [|split].
      - cbn [RPipeModel.run]. rewrite E1. cbn [obind]. rewrite run_app, R1. cbn [obind]. rewrite R2. reflexivity.
      - rewrite RotationProofs.wrote_app, W1, W2. reflexivity.
      - rewrite RotationProofs.results_app, S1. apply Forall_app. split; [repeat constructor|exact S2]. }
    destruct (X _ s eq_refl Gs Wi Op) as (l' & s' & o' & L1 & R1 & W1 & S1). exists l', s', o'. split; [exact L1|]. split; [rewrite run_app, R; cbn [obind]; rewrite R1; reflexivity|].
    split; [|exact S1]. rewrite RotationProofs.wrote_app, W1, Wr, F1. exact Fl.
  Qed.
End Claims.

(** * Examples *)
Definition app : bytes := bs "app.log".
Definition emptyFS : FS := mkFS [] [].
Definition E := event (option Z).
Notation exstart f := (start app (option Z) None f).
Notation exrun Max := (run true 4 app (option Z) Max (fun _ => true)).
Definition send (w : nat) (r : string) : list E := [QAsync _ (Alloc (bs r)); QAsync _ (WCall w w (bs r)); QAsync _ (WSend w)].
Definition first (r : string) : list E := [QCall _ (bs r); QStep _ (EWriter _); QStep _ (EWrite _ None); QStep _ (EWriter _); QReturn _ (EUpdate _ None (Some false)) (bs r) WOk].
Definition again (r : string) : list E := [QCall _ (bs r); QStep _ (EWriter _); QStep _ (EWriter _); QStep _ (EOpen _ false); QStep _ (EOpen _ false); QStep _ (EWrite _ None); QReturn _ (EWriter _) (bs r) WOk].
Definition archive (p : string) (l : list Archive) (purged : nat) : list E :=
  [QStep _ (ETrigger _ (Some 1) 0); QStep _ (EFire _); QStep _ (ERename _ (Some (bs p)) false); QStep _ (EList _ (Some l)); QStep _ (ERotate _)] ++ repeat (QStep _ (ERemove _ false)) purged ++
  [QStep _ (ERotate _)].
(** A caller changes its buffer after Write; the file is archived while the second record is being written, between the check and the write *)
Definition ex_before : list E :=
  [QAsync _ (Alloc (bs "one ")); QAsync _ (WCall 0 0 (bs "one ")); QAsync _ (WSend 0); QAsync _ (Change 0 (bs "two ")); QAsync _ (WCall 1 0 (bs "two ")); QAsync _ (WSend 1);
   QAsync _ (Change 0 (bs "three")); QAsync _ GTake] ++ first "one " ++
  [QAsync _ (WCall 2 0 (bs "three")); QAsync _ (WSend 2); QAsync _ GTake; QCall _ (bs "two "); QStep _ (EWriter _)] ++ archive "1.log" [] 0 ++
  [QStep _ (EWrite _ None); QReturn _ (EWriter _) (bs "two ") WOk].
Definition ex_after : list E := [QAsync _ GDone; QAsync _ GTakeLast] ++ again "three" ++ [QAsync _ GEmpty; QStep _ (ETrigger _ (Some 0) 0); QClose _].
Definition ex_all : list E := ex_before ++ QAsync _ CloseCall :: ex_after.
Example C136_records_example : exists s o, exrun 1 (exstart emptyFS) ex_all = Some (s, o) /\ between _ s /\ accepted (asyncs _ ex_all) = [bs "one "; bs "two "; bs "three"] /\
  wrote o = [bs "one "; bs "two "; bs "three"] /\ results o = [(4, false); (4, false); (5, false)]%nat.
Proof. do 2 eexists. split; [vm_compute; reflexivity|]. split; [right; reflexivity|]. repeat split; vm_compute; reflexivity. Qed.
Example C136_files_example : exists s o, good_fs emptyFS /\ Forall (healthy _) (rots _ ex_all) /\ new_names _ app 1 (fun _ => true) (NewWriter app (option Z) None emptyFS) (rots _ ex_all) /\
  exrun 1 (exstart emptyFS) ex_all = Some (s, o) /\ between _ s /\ removed o = [] /\ archived o = [bs "1.log"] /\
  map (read (fs _ (qr _ s))) [bs "1.log"; app] = [bs "one two "; bs "three"].
Proof.
  do 2 eexists. split; [intros p i H; discriminate H|]. split; [repeat constructor|]. split; [vm_compute; repeat split; auto; left; reflexivity|].
  split; [vm_compute; reflexivity|]. split; [right; reflexivity|]. repeat split; vm_compute; reflexivity.
Qed.
(** A crash within Write; the next process appends to the same file *)
Definition ex_crash : list E := send 0 "half" ++ [QAsync _ GTake; QCall _ (bs "half"); QStep _ (EWriter _); QStep _ (EWrite _ (Some 2%nat))].
Example C136_restart_example : exists s o s' o', exrun 1 (exstart emptyFS) ex_crash = Some (s, o) /\ exrun 1 (exstart (fs _ (qr _ s))) (send 0 "next" ++ QAsync _ GTake :: first "next") = Some (s', o') /\
  read (fs _ (qr _ s')) app = bs "hanext".
Proof. do 4 eexists. split; [vm_compute; reflexivity|]. split; vm_compute; reflexivity. Qed.
Example C136_closed_example : exists s o s' o', exrun 1 (exstart emptyFS) ex_all = Some (s, o) /\ AsyncModel.closed (qw _ s) = true /\
  exrun 1 s [QAsync _ (WCall 3 0 (bs "three")); QAsync _ (WSend 3)] = Some (s', o') /\ accepted (asyncs _ (ex_all ++ [QAsync _ (WCall 3 0 (bs "three")); QAsync _ (WSend 3)])) <> wrote o.
Proof. do 4 eexists. split; [vm_compute; reflexivity|]. split; [reflexivity|]. split; vm_compute; [reflexivity|discriminate]. Qed.
Lemma not_in_dec : forall (p : E -> bool) x l, p x = true -> forallb (fun e => negb (p e)) l = true -> ~ In x l.
Proof. intros p x l P H I. rewrite forallb_forall in H. specialize (H x I). rewrite P in H. discriminate H. Qed.
Example C136_close_example : ~ In (QAsync _ CloseCall) ex_before /\ ~ In (QAsync _ GTimer) ex_after /\ accepted (asyncs _ ex_before) = [bs "one "; bs "two "; bs "three"] /\
  exists s o, exrun 1 (exstart emptyFS) ex_all = Some (s, o) /\ AsyncModel.closed (qw _ s) = true /\ removed o = [] /\ Forall (healthy _) (rots _ ex_all).
Proof.
  split; [apply (not_in_dec (fun e => match e with QAsync _ CloseCall => true | _ => false end)); reflexivity|].
  split; [apply (not_in_dec (fun e => match e with QAsync _ GTimer => true | _ => false end)); reflexivity|]. split; [vm_compute; reflexivity|].
  do 2 eexists. split; [vm_compute; reflexivity|]. split; [reflexivity|]. split; [reflexivity|repeat constructor].
Qed.
Example C136_found_example : exists s o, exrun 1 (exstart emptyFS) ex_all = Some (s, o) /\ new_names _ app 1 (fun _ => true) (NewWriter app (option Z) None emptyFS) (rots _ ex_all) /\ removed o = [] /\
  In (bs "two ") (accepted (asyncs _ ex_before)) /\ read (fs _ (qr _ s)) (bs "1.log") = bs "one " ++ bs "two " ++ [].
Proof.
  do 2 eexists. split; [vm_compute; reflexivity|]. split; [vm_compute; repeat split; auto; left; reflexivity|]. split; [reflexivity|]. split; [vm_compute; auto|vm_compute; reflexivity].
Qed.
Example C136_drains_example : exists s o, exrun 1 (exstart emptyFS) ex_before = Some (s, o) /\ AsyncModel.g (qw _ s) = GSelect /\ Forall (healthy _) (rots _ ex_before) /\
  accepted (asyncs _ ex_before) = wrote o ++ [bs "three"].
Proof. do 2 eexists. split; [vm_compute; reflexivity|]. split; [reflexivity|]. split; [repeat constructor|vm_compute; reflexivity]. Qed.

(** * What does not hold *)
(** When Close has returned, every record accepted before it was called is in some file, if there were no errors, the names were new and nothing was removed. *)
Definition C136_full : Prop := forall B n WritePath Stat (noStat : Stat) Max hasDirectory f a b s o r, good_fs f ->
  let l := a ++ QAsync _ CloseCall :: b in
  run B n WritePath Stat Max hasDirectory (start WritePath Stat noStat f) l = Some (s, o) -> AsyncModel.closed (qw _ s) = true -> Forall (healthy _) (rots _ l) ->
  new_names _ WritePath Max hasDirectory (NewWriter WritePath Stat noStat f) (rots _ l) -> removed o = [] ->
  In r (accepted (asyncs _ a)) -> exists p x y, read (fs _ (qr _ s)) p = x ++ r ++ y.
(** The second is over before everything is written: the rest of the queue is thrown away. *)
Definition ex_queued : list E := send 0 "next" ++ send 2 "rest".
Definition ex_late : list E := [QAsync _ GDone; QAsync _ GTakeLast] ++ first "next" ++ [QAsync _ GTimer; QStep _ (ETrigger _ (Some 0) 0); QClose _].
Theorem C136_timer_refuted : exists s o, exrun 1 (exstart emptyFS) (ex_queued ++ QAsync _ CloseCall :: ex_late) = Some (s, o) /\ AsyncModel.closed (qw _ s) = true /\
  accepted (asyncs _ ex_queued) = [bs "next"; bs "rest"] /\ wrote o = [bs "next"] /\ links (fs _ (qr _ s)) = [(app, 0%nat)] /\ read (fs _ (qr _ s)) app = bs "next" /\ removed o = [].
Proof. do 2 eexists. split; [vm_compute; reflexivity|]. repeat split; vm_compute; reflexivity. Qed.
(** The retention removes the archive that the goroutine still writes to: Write of either writer reports no error, and the record is in no file. *)
Definition ex_purged : list E :=
  send 0 "lost" ++ [QAsync _ GTake; QCall _ (bs "lost"); QStep _ (EWriter _)] ++ archive "1.log" [mkArchive (bs "1.log") 1 0] 1 ++ [QStep _ (EWrite _ None); QReturn _ (EWriter _) (bs "lost") WOk] ++
  [QAsync _ CloseCall; QAsync _ GDone; QAsync _ GEmpty; QStep _ (ETrigger _ (Some 0) 0); QClose _].
Theorem C136_purge_refuted : exists s o, exrun 0 (exstart emptyFS) ex_purged = Some (s, o) /\ AsyncModel.closed (qw _ s) = true /\ accepted (asyncs _ ex_purged) = [bs "lost"] /\
  wrote o = [bs "lost"] /\ results o = [(4, false)]%nat /\ links (fs _ (qr _ s)) = [].
Proof. do 2 eexists. split; [vm_compute; reflexivity|]. repeat split; vm_compute; reflexivity. Qed.
Theorem C136_full_refuted : ~ C136_full.
Proof.
  intro H. destruct C136_timer_refuted as (s & o & R & C & A & W & Lk & Ct & Rm).
  destruct (H true 4%nat app (option Z) None 1 (fun _ => true) emptyFS ex_queued ex_late s o (bs "rest") ltac:(intros p i K; discriminate K)) as (p & x & y & P); try assumption.
  - repeat constructor.
  - vm_compute. repeat split; auto.
  - rewrite A. right. left. reflexivity.
  - assert (Z0 : (List.length (read (fs _ (qr _ s)) p) <= 4)%nat /\ In 114 (read (fs _ (qr _ s)) p)).
    { split; [|rewrite P; apply in_or_app; right; left; reflexivity]. unfold read in *. rewrite Lk in *. cbn [find] in *. destruct (streq app p); [|cbn; lia].
      destruct (streq app app); [rewrite Ct; cbn; lia|]. discriminate Ct. }
    destruct Z0 as [_ Z0]. unfold read in *. rewrite Lk in *. cbn [find] in *. destruct (streq app p); [|destruct Z0]. destruct (streq app app); [|discriminate Ct]. rewrite Ct in Z0.
    cbn in Z0. repeat (destruct Z0 as [Z0|Z0]; [discriminate Z0|]). destruct Z0.
Qed.
Print Assumptions C136_records.
Print Assumptions C136_files.
Print Assumptions C136_restart.
Print Assumptions C136_closed.
Print Assumptions C136_close_partial.
Print Assumptions C136_found_partial.
Print Assumptions C136_drains.
Print Assumptions C136_timer_refuted.
Print Assumptions C136_purge_refuted.
Print Assumptions C136_full_refuted.
