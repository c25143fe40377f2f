(** Property C126: the page that witch's viewer shows. *)
From Verif Require Import Base ViewerModel ViewerSpec ViewerProofs.
Open Scope Z_scope.
Open Scope list_scope.

(** * C126: witch's viewer *)

(** bytes.Replace: there is one text in which all occurrences are replaced, it is that *)
Theorem C126_replace : forall s p c r, p <> [] -> (Replace s p c = r <-> replaced p c s r).
Proof.
  intros s p c r P. split.
  - intros <-. now apply Replace_replaced.
  - intros H. eapply replaced_unique; [now apply Replace_replaced|exact H].
Qed.
Print Assumptions C126_replace.
Example C126_replace_example : Replace (bs "<b>xx</b>x") (bs "x") (bs "xy") = bs "<b>xyxy</b>xy" /\ Replace (bs "aaa") (bs "aa") (bs "b") = bs "ba".
Proof. split; reflexivity. Qed.

(** Start loads the page of the files in the program, the first time, makes countlog's event writer write to the event queue, and listens at the address, if there is one *)
Theorem C126_start : forall fs page addr w, viewerHtml w = None -> page_of fs in_program [] page ->
  (page <> [] -> viewerHtml (Start (Some fs) addr w) = Some page) /\ writerIsQueue (Start (Some fs) addr w) = true /\
  listening (Start (Some fs) addr w) = listening w ++ (if (List.length addr =? 0)%nat then [] else [addr]).
Proof.
  intros fs page addr w V (index & htmls & I & H & R). rewrite app_nil_r in R. unfold Start, initViewerHtml. rewrite V.
  change (bs "/index.html") with (in_program (bs "index.html")). rewrite I.
  assert (E : readAll fs (fun file => bs "/" ++ file) files [] = inl (List.concat htmls)).
  { apply readAll_inl. exists htmls. split; auto. }
  rewrite E. apply C126_replace in R; [|discriminate]. cbn [viewerHtml writerIsQueue listening]. split; [|split].
  - intros P. destruct index as [|x index]; [elim P; subst page; reflexivity|]. now f_equal.
  - reflexivity.
  - destruct addr; cbn [List.length Nat.eqb]; [now rewrite app_nil_r|reflexivity].
Qed.
Print Assumptions C126_start.

(** If one of the files cannot be read, it does nothing *)
Theorem C126_missing : forall statik addr w, viewerHtml w = None ->
  (statik = None \/ exists fs err, statik = Some fs /\ first_error fs in_program err) -> Start statik addr w = w.
Proof.
  intros statik addr w V H. unfold Start, initViewerHtml. rewrite V. destruct statik as [fs|].
  2: { destruct w; cbn in *; now subst. }
  destruct H as [H|(fs' & err & [= <-] & H)]; [discriminate|].
  change (bs "/index.html") with (in_program (bs "index.html")). destruct (fs (in_program (bs "index.html"))) as [index|e] eqn:I.
  2: { destruct w; cbn in *; now subst. }
  destruct (readAll fs (fun file => bs "/" ++ file) files []) as [c|e] eqn:E.
  2: { destruct w; cbn in *; now subst. }
  apply readAll_inl in E. destruct E as (htmls & E & _). exfalso.
  apply (page_first_excl fs in_program [] (Replace index placeholder (List.concat htmls ++ [])) err); auto.
  exists index, htmls. split; auto. split; auto. apply Replace_replaced. discriminate.
Qed.
Print Assumptions C126_missing.
(** One of the two is the case *)
Theorem C126_either : forall fs name script, (exists page, page_of fs name script page) \/ exists err, first_error fs name err.
Proof.
  intros fs name script. destruct (fs (name (bs "index.html"))) as [index|e] eqn:I.
  - destruct (readAll fs name files []) as [c|e] eqn:E.
    + apply readAll_inl in E. destruct E as (htmls & E & _). left. exists (Replace index placeholder (List.concat htmls ++ script)), index, htmls.
      split; auto. split; auto. apply Replace_replaced. discriminate.
    + apply readAll_inr in E. destruct E as (b & f & a & E & R & B). right. exists e, (bs "index.html" :: b), f, a. rewrite <- files_are, E.
      split; [reflexivity|]. split; auto. intros g [<-|G]; eauto.
  - right. exists e, [], (bs "index.html"), component_files. split; [reflexivity|]. split; auto. intros g [].
Qed.
Print Assumptions C126_either.

(** Later calls keep the page, and go on as the first one *)
Theorem C126_again : forall statik addr w h, viewerHtml w = Some h ->
  Start statik addr w = mkWorld (Some h) true (listening w ++ (if (List.length addr =? 0)%nat then [] else [addr])).
Proof.
  intros statik addr w h V. unfold Start, initViewerHtml. rewrite V. destruct addr; cbn [List.length Nat.eqb]; [now rewrite app_nil_r|reflexivity].
Qed.
Print Assumptions C126_again.

(** Files: index.html names the components twice; the others hold their names *)
Definition v_fs (dir : bytes) : fsys := fun name =>
  match stripPrefix dir name with
  | Some f => if list_eq_dec Z.eq_dec f (bs "index.html") then inl (bs "<{{ COMPONENTS }}|{{ COMPONENTS }}>")
      else if in_dec (list_eq_dec Z.eq_dec) f files then inl f else inr (bs "open: file does not exist")
  | None => inr (bs "open: file does not exist")
  end.
Definition v_page (script : bytes) : bytes := bs "<" ++ List.concat files ++ script ++ bs "|" ++ List.concat files ++ script ++ bs ">".
Lemma v_page_of : forall dir script, dir = bs "/" \/ dir = bs "/src/" -> page_of (v_fs dir) (fun f => dir ++ f) script (v_page script).
Proof.
  intros dir script D. exists (bs "<{{ COMPONENTS }}|{{ COMPONENTS }}>"), files. split; [destruct D; subst; reflexivity|]. split.
  - destruct D; subst; repeat constructor; vm_compute; reflexivity.
  - apply C126_replace; [discriminate|]. unfold v_page. generalize (List.concat files) as c. intros c.
    change (Replace _ _ _) with (bs "<" ++ (c ++ script) ++ bs "|" ++ (c ++ script) ++ bs ">"). now rewrite <- !app_assoc.
Qed.
Definition v_w0 : world := mkWorld None false [].
Example C126_start_example : viewerHtml v_w0 = None /\ page_of (v_fs (bs "/")) in_program [] (v_page []) /\
  Start (Some (v_fs (bs "/"))) (bs ":8318") v_w0 = mkWorld (Some (v_page [])) true [bs ":8318"] /\
  Start None (bs ":1") (Start (Some (v_fs (bs "/"))) (bs ":8318") v_w0) = mkWorld (Some (v_page [])) true [bs ":8318"; bs ":1"].
Proof. split; [reflexivity|]. split; [apply (v_page_of (bs "/") []); auto|]. split; vm_compute; reflexivity. Qed.
Example C126_missing_example : first_error (v_fs (bs "/src/")) in_program (bs "open: file does not exist") /\ Start (Some (v_fs (bs "/src/"))) (bs ":8318") v_w0 = v_w0.
Proof. split; [|vm_compute; reflexivity]. exists [], (bs "index.html"), component_files. split; [reflexivity|]. split; [reflexivity|]. intros f []. Qed.

(** The home page is the page of the files in the directory of the source, with a script that says so; or the text of the error *)
Theorem C126_partial : forall join disk w,
  (forall page, page_of disk join debug_text page -> homepage join disk w = page) /\
  (forall err, first_error disk join err -> homepage join disk w = err).
Proof.
  intros join disk w. change debug_text with debugScript. unfold homepage, loadDebugViewerHtml. cbn [negb isDebug]. split.
  - intros page (index & htmls & I & H & R). rewrite I.
    assert (E : readAll disk join files [] = inl (List.concat htmls)) by (apply readAll_inl; exists htmls; split; auto).
    rewrite E. apply C126_replace; [discriminate|exact R].
  - intros err F. destruct (disk (join (bs "index.html"))) as [index|e] eqn:I.
    + destruct (readAll disk join files []) as [c|e] eqn:E.
      * exfalso. apply readAll_inl in E. destruct E as (htmls & E & _).
        apply (page_first_excl disk join [] (Replace index placeholder (List.concat htmls ++ [])) err); auto.
        exists index, htmls. split; auto. split; auto. apply Replace_replaced. discriminate.
      * apply readAll_inr in E. destruct E as (b & f & a & E & R & B). destruct F as (b' & f' & a' & E' & R' & B').
        pose proof (f_equal (hd []) E') as E1. pose proof (f_equal (@tl _) E') as E2. clear E'. rename E2 into E'.
        destruct b' as [|x b']; cbn [hd tl app] in E1, E'; [congruence|]. subst x. rewrite <- files_are, E in E'. clear E I.
        revert b' E' B'. induction b as [|y b IH]; intros [|z b'] E' B'; injection E' as X E'; subst.
        -- congruence.
        -- destruct (B' z) as [h X]; [right; now left|congruence].
        -- destruct (B f') as [h X]; [now left|congruence].
        -- eapply IH; eauto. { intros g G. apply B. now right. } intros g [<-|G]; apply B'; [now left|right; now right].
    + destruct F as (b' & f' & a' & E' & R' & B'). pose proof (f_equal (hd []) E') as E1.
      destruct b' as [|x b']; cbn [hd app] in E1; [congruence|]. subst x. destruct (B' (bs "index.html")) as [h X]; [now left|congruence].
Qed.
Print Assumptions C126_partial.
Example C126_partial_example : page_of (v_fs (bs "/src/")) (fun f => bs "/src/" ++ f) debug_text (v_page debug_text) /\
  homepage (fun f => bs "/src/" ++ f) (v_fs (bs "/src/")) v_w0 = v_page debug_text /\
  first_error (fun _ => inr (bs "open /src/index.html: no such file or directory")) (fun f => bs "/src/" ++ f) (bs "open /src/index.html: no such file or directory").
Proof.
  split; [apply (v_page_of (bs "/src/")); auto|]. split; [vm_compute; reflexivity|].
  exists [], (bs "index.html"), component_files. split; [reflexivity|]. split; [reflexivity|]. intros f [].
Qed.

(** The page that Start loads is not what the home page shows: that is the same whatever was loaded, and also if nothing was *)
Theorem C126_embedded_refuted : forall join disk w w', homepage join disk w = homepage join disk w'.
Proof. reflexivity. Qed.
Print Assumptions C126_embedded_refuted.
Example C126_embedded_example : v_w0 <> Start (Some (v_fs (bs "/"))) (bs ":8318") v_w0 /\
  homepage (fun f => bs "/src/" ++ f) (v_fs (bs "/")) (Start (Some (v_fs (bs "/"))) (bs ":8318") v_w0) = bs "open: file does not exist".
Proof. split; [intros H; apply (f_equal writerIsQueue) in H; vm_compute in H; discriminate H|vm_compute; reflexivity]. Qed.
Definition C126_full : Prop := forall fs page addr w join disk, viewerHtml w = None -> page_of fs in_program [] page -> page <> [] ->
  homepage join disk (Start (Some fs) addr w) = page.
Theorem C126_full_refuted : ~ C126_full.
Proof.
  intros F. destruct C126_start_example as (V & P & _).
  pose proof (F (v_fs (bs "/")) (v_page []) (bs ":8318") v_w0 (fun f => bs "/src/" ++ f) (v_fs (bs "/")) V P ltac:(discriminate)) as E.
  vm_compute in E. discriminate E.
Qed.
Print Assumptions C126_full_refuted.

(** The routes: two paths, and whatever else begins with /witch/ *)
Theorem C126_routes : forall path,
  route path = if list_eq_dec Z.eq_dec path (bs "/witch/more-events") then Some HMoreEvents
    else if list_eq_dec Z.eq_dec path (bs "/witch/expvar") then Some HExpvar
    else if in_dec (list_eq_dec Z.eq_dec) (bs "/witch/") [firstn 7 path] then Some HHomepage else None.
Proof.
  intros path. unfold route, patterns. cbn [fold_left fst snd].
  assert (M : forall q, last q 0 <> 47 -> matches q path = if list_eq_dec Z.eq_dec path q then true else false).
  { intros q Q. unfold matches. destruct (Z.eqb_spec (last q 0) 47) as [E|E]; [contradiction|].
    destruct (list_eq_dec Z.eq_dec q path), (list_eq_dec Z.eq_dec path q); congruence. }
  assert (W : matches (bs "/witch/") path = if in_dec (list_eq_dec Z.eq_dec) (bs "/witch/") [firstn 7 path] then true else false).
  { unfold matches. change (last (bs "/witch/") 0 =? 47) with true. cbv iota. destruct (stripPrefix (bs "/witch/") path) as [r|] eqn:E.
    - apply strip_some in E. subst path. destruct in_dec as [_|N]; [reflexivity|]. elim N. left. reflexivity.
    - rewrite strip_none in E. destruct in_dec as [[I|[]]|_]; [|reflexivity]. exfalso. apply (E (skipn 7 path)). rewrite <- I. symmetry. apply firstn_skipn. }
  rewrite (M (bs "/witch/more-events")), (M (bs "/witch/expvar")), W by discriminate.
  destruct (list_eq_dec Z.eq_dec path (bs "/witch/more-events")) as [->|N1]; [reflexivity|].
  destruct (list_eq_dec Z.eq_dec path (bs "/witch/expvar")) as [->|N2]; [reflexivity|].
  destruct in_dec; reflexivity.
Qed.
Print Assumptions C126_routes.
Example C126_routes_example : route (bs "/witch/more-events") = Some HMoreEvents /\ route (bs "/witch/more-events/") = Some HHomepage /\
  route (bs "/witch/") = Some HHomepage /\ route (bs "/") = None.
Proof. vm_compute. repeat split. Qed.
