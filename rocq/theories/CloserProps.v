(** Property C22: closer.go. *)
From Verif Require Import Base CloserModel CloserSpec.

Lemma nonNil_spec : forall errs acc, nonNil errs acc = acc ++ flat_map (fun o => match o with Some e => [e] | None => [] end) errs.
Proof.
  induction errs as [|[e|] errs IH]; intros acc; cbn [nonNil flat_map]; [now rewrite app_nil_r| |auto].
  rewrite IH, <- app_assoc. reflexivity.
Qed.

(** MergeErrors: nil iff all are nil, else exactly the non-nil ones in order. *)
Theorem C22_merge_errors : forall errs,
  (MergeErrors errs = None <-> Forall (fun e => e = None) errs) /\
  (forall l, MergeErrors errs = Some l -> map Some l = filter (fun e => match e with None => false | _ => true end) errs).
Proof.
  intros errs. unfold MergeErrors. rewrite nonNil_spec. cbn [app]. set (f := fun o : option Z => match o with Some e => [e] | None => [] end). split.
  - induction errs as [|[e|] errs IH]; cbn [flat_map f app].
    + split; [constructor|auto].
    + split; [discriminate|]. intros H. inversion H as [|? ? Q _]. discriminate Q.
    + rewrite IH. split; intros H; [constructor; auto|now inversion H].
  - assert (X : map Some (flat_map f errs) = filter (fun e => match e with None => false | _ => true end) errs).
    { induction errs as [|[e|] errs IH]; cbn; [auto|f_equal; auto|auto]. }
    intros l H. destruct (flat_map f errs); [discriminate H|]. injection H as <-. exact X.
Qed.
Print Assumptions C22_merge_errors.

Lemma merge_some : forall l, MergeErrors (map Some l) = match l with [] => None | _ => Some l end.
Proof.
  intros l. unfold MergeErrors. rewrite nonNil_spec. cbn [app].
  replace (flat_map _ (map Some l)) with l; auto. induction l as [|e l IH]; cbn; [auto|now f_equal].
Qed.

Lemma closes_app : forall a b, closes (a ++ b) = closes a ++ closes b.
Proof. intros. apply flat_map_app. Qed.
Lemma logs_app : forall a b, logs (a ++ b) = logs a ++ logs b.
Proof. intros. apply filter_app. Qed.

Section Claims.
  Variable close : list effect -> Z -> result.
  Variable logPanics : list effect -> bool.
  Variable closedAt : bytes.
  Notation CloseAll := (CloseAll close logPanics closedAt).
  Notation closeLoop := (closeLoop close logPanics closedAt).
  Let text : bytes := bs "event!CloseAll called from " ++ closedAt.

  Lemma truthful_snoc_close : forall t r, truthful close t -> truthful close (t ++ [EClose r (close t r)]).
  Proof.
    intros t r H a r' o b E. destruct (exists_last (l := EClose r' o :: b) ltac:(discriminate)) as (b' & x & Eb).
    rewrite Eb in E. rewrite app_assoc in E. apply app_inj_tail in E as [E1 E2]. destruct b' as [|y b'].
    - cbn [app] in Eb. injection Eb as <- ->. rewrite app_nil_r in E1. subst. injection E2 as <- <-. reflexivity.
    - cbn [app] in Eb. injection Eb as <- Eb. apply (H a r' o b'). exact E1.
  Qed.
  Lemma truthful_snoc_log : forall t e, truthful close t -> logs [e] = [e] -> truthful close (t ++ [e]).
  Proof.
    intros t e H L a r o b E. destruct (exists_last (l := EClose r o :: b) ltac:(discriminate)) as (b' & x & Eb).
    rewrite Eb in E. rewrite app_assoc in E. apply app_inj_tail in E as [E1 E2]. destruct b' as [|y b'].
    - cbn [app] in Eb. injection Eb as <- ->. subst e. discriminate L.
    - cbn [app] in Eb. injection Eb as <- Eb. apply (H a r o b'). exact E1.
  Qed.

  Lemma error_events_cons : forall props e es,
    error_events text props (e :: es) = EError text (props ++ [PKey (bs "err"); PError e]) :: error_events text (props ++ [PKey (bs "err"); PError e]) es.
  Proof.
    intros props e es. unfold error_events. cbn [List.length seq map firstn]. apply f_equal2; [reflexivity|].
    rewrite <- seq_shift, map_map. apply map_ext. intros n. cbn [firstn err_props flat_map]. rewrite <- app_assoc. reflexivity.
  Qed.

  (** The loop, without panics. *)
  Lemma loop_spec : no_panic close -> quiet logPanics -> forall rs t props errs, truthful close t ->
    exists outs u, closeLoop t rs props errs = (t ++ u, Some (props ++ err_props (failures outs), errs ++ failures outs)) /\
      closes u = combine rs outs /\ List.length outs = List.length rs /\ truthful close (t ++ u) /\
      logs u = error_events text props (failures outs).
  Proof.
    intros NP Q rs. induction rs as [|r rs IH]; intros t props errs T.
    - exists [], []. cbn [CloserModel.closeLoop failures flat_map err_props closes logs filter combine error_events seq map List.length]. rewrite !app_nil_r. auto.
    - cbn [CloserModel.closeLoop]. pose proof (truthful_snoc_close t r T) as T1. pose proof (NP t r) as N. destruct (close t r) as [|e|] eqn:E; [| |congruence].
      + destruct (IH (t ++ [EClose r Closed]) props errs T1) as (outs & u & L & C & Len & T2 & G).
        exists (Closed :: outs), (EClose r Closed :: u). rewrite <- app_assoc in L, T2. cbn [app] in L, T2. rewrite L.
        cbn [closes logs flat_map filter failures app combine List.length]. split; [reflexivity|]. split; [f_equal; exact C|]. split; [now rewrite Len|]. auto.
      + unfold log. rewrite Q. set (ev := EError _ _).
        assert (T1' : truthful close ((t ++ [EClose r (Failed e)]) ++ [ev])) by (apply truthful_snoc_log; auto).
        destruct (IH ((t ++ [EClose r (Failed e)]) ++ [ev]) (props ++ [PKey (bs "err"); PError e]) (errs ++ [e]) T1') as (outs & u & L & C & Len & T2 & G).
        exists (Failed e :: outs), (EClose r (Failed e) :: ev :: u). rewrite L. rewrite <- !app_assoc in T2. cbn [app] in T2.
        cbn [closes logs flat_map filter failures app combine List.length err_props ev]. split; [now rewrite <- !app_assoc|]. split; [f_equal; exact C|].
        split; [now rewrite Len|]. split; [exact T2|]. fold (logs u). rewrite G. fold (failures outs). now rewrite error_events_cons.
  Qed.

  (** Every resource is closed exactly once and in order whatever the others do; the result is nil iff all
      succeeded, else it carries exactly the failures in order; each failure is logged once, and one Debug event
      is logged iff nothing failed and the caller gave properties. *)
  Theorem C22_close_all : no_panic close -> quiet logPanics -> forall rs props, exists trace outs,
    List.length outs = List.length rs /\
    CloseAll rs props = (trace, Some (match failures outs with [] => None | l => Some l end)) /\
    closes trace = combine rs outs /\ truthful close trace /\
    logs trace = error_events text props (failures outs) ++
      match failures outs, props with [], _ :: _ => [EDebug text props] | _, _ => [] end.
  Proof.
    intros NP Q rs props. destruct (loop_spec NP Q rs [] props []) as (outs & u & L & C & Len & T & G).
    { intros a r o b E. destruct a; discriminate E. }
    unfold CloserModel.CloseAll. rewrite L. cbn [app] in *. destruct (failures outs) as [|e es] eqn:F.
    - cbn [err_props flat_map]. rewrite app_nil_r. destruct props as [|p props].
      + exists u, outs. rewrite F. rewrite app_nil_r. auto.
      + unfold log. rewrite Q. eexists. exists outs. split; [auto|]. rewrite F. split; [reflexivity|]. rewrite closes_app, logs_app, G, C. cbn [closes flat_map].
        rewrite app_nil_r. split; auto. split; [|reflexivity]. apply truthful_snoc_log; auto.
    - exists u, outs. rewrite F. split; auto. rewrite merge_some. split; [destruct (_ ++ _); reflexivity|]. rewrite app_nil_r. auto.
  Qed.

  Corollary C22_nil_iff : no_panic close -> quiet logPanics -> forall rs props,
    snd (CloseAll rs props) = Some None <-> Forall (fun x => snd x = Closed) (closes (fst (CloseAll rs props))).
  Proof.
    intros NP Q rs props. destruct (C22_close_all NP Q rs props) as (t & outs & Len & E & C & T & _). rewrite E. cbn [fst snd]. rewrite C.
    assert (X : failures outs = [] <-> Forall (fun x => snd x = Closed) (combine rs outs)).
    { assert (Y : Forall (fun x => snd x <> Panicked) (combine rs outs)).
      { rewrite <- C. apply Forall_forall. intros [r o] I. unfold closes in I. apply in_flat_map in I as (e & I1 & I2).
        destruct e as [r' o'| |]; try destruct I2 as []; [|contradiction]. injection H as -> ->. apply in_split in I1 as (a & b & ->).
        cbn [snd]. rewrite <- (T a r o b eq_refl). apply NP. }
      clear - Len Y. revert rs Len Y. induction outs as [|o outs IH]; intros [|r rs] Len Y; try discriminate Len; cbn [combine failures flat_map].
      - split; [constructor|auto].
      - cbn [combine] in Y. inversion Y as [|? ? Y1 Y2]; subst. cbn [snd] in Y1. injection Len as Len. specialize (IH rs Len Y2). destruct o as [|e|]; [| |congruence].
        + cbn [app]. fold (failures outs). rewrite IH. split; intros H; [constructor; auto|now inversion H].
        + split; [discriminate|]. intros H. inversion H as [|? ? K _]. discriminate K. }
    rewrite <- X. destruct (failures outs); split; congruence.
  Qed.

  (** If a resource panics (or logging its failure does), the resources after it are not closed. *)
  Theorem C22_panic_exact : forall rs props, snd (CloseAll rs props) = None -> logPanics = (fun _ => false) ->
    exists done r rest, rs = done ++ r :: rest /\
      map fst (closes (fst (CloseAll rs props))) = done ++ [r] /\ close (removelast (fst (CloseAll rs props))) r = Panicked.
  Proof.
    intros rs props H Q.
    assert (X : forall rs t p errs, snd (closeLoop t rs p errs) = None ->
      exists done r rest u, rs = done ++ r :: rest /\ fst (closeLoop t rs p errs) = t ++ u ++ [EClose r Panicked] /\ map fst (closes u) = done /\ close (t ++ u) r = Panicked).
    { clear rs props H. induction rs as [|r rs IH]; intros t p errs H; [discriminate H|]. cbn [CloserModel.closeLoop] in *. destruct (close t r) as [|e|] eqn:E.
      - destruct (IH _ _ _ H) as (done & r' & rest & u & -> & F & M & P). exists (r :: done), r', rest, (EClose r Closed :: u).
        rewrite F. rewrite <- !app_assoc in *. cbn [app] in *. split; [reflexivity|]. split; [reflexivity|]. split; [cbn [closes flat_map app map fst]; f_equal; exact M|exact P].
      - unfold log in *. rewrite Q in *. set (ev := EError _ _) in *. destruct (IH _ _ _ H) as (done & r' & rest & u & -> & F & M & P).
        exists (r :: done), r', rest, (EClose r (Failed e) :: ev :: u).
        rewrite F. rewrite <- !app_assoc in *. cbn [app] in *. split; [reflexivity|]. split; [reflexivity|]. split; [cbn [closes flat_map app map fst ev]; f_equal; exact M|exact P].
      - exists [], r, rs, []. split; [reflexivity|]. split; [reflexivity|]. split; [reflexivity|]. now rewrite app_nil_r. }
    unfold CloserModel.CloseAll in *. destruct (closeLoop [] rs props []) as [t [[p errs]|]] eqn:L.
    - exfalso. unfold log in H. rewrite Q in H. destruct errs, p; discriminate H.
    - specialize (X rs [] props []). rewrite L in X. destruct (X eq_refl) as (done & r & rest & u & -> & F & M & P). cbn [fst app] in *.
      exists done, r, rest. split; auto. rewrite F. split; [rewrite closes_app, map_app, M; reflexivity|].
      rewrite removelast_last. exact P.
  Qed.

  (** Close: the resource is closed once, its error is returned unchanged, and logged iff there is one. *)
  Theorem C22_close : forall r props, quiet logPanics ->
    closes (fst (Close close logPanics closedAt r props)) = [(r, close [] r)] /\
    snd (Close close logPanics closedAt r props) = match close [] r with Closed => Some None | Failed e => Some (Some e) | Panicked => None end /\
    logs (fst (Close close logPanics closedAt r props)) =
      match close [] r with Failed e => [EError (bs "event!close " ++ closedAt) (props ++ [PKey (bs "err"); PError e])] | _ => [] end.
  Proof. intros r props Q. unfold Close, log. rewrite Q. destruct (close [] r); auto. Qed.
End Claims.
Print Assumptions C22_close_all.
Print Assumptions C22_nil_iff.
Print Assumptions C22_panic_exact.
Print Assumptions C22_close.

(** A wrapped function is the Close of its resource and of no other. *)
Theorem C22_wrap : forall f r others t r', WrapCloser f r others t r' = if r' =? r then f t else others t r'.
Proof. reflexivity. Qed.
Print Assumptions C22_wrap.

(** Resource 2 fails, and fails again differently if it is closed twice; resource 3 fails. *)
Definition ex_close (t : list effect) (r : Z) : result :=
  if r =? 2 then Failed (20 + lenZ (filter (fun x => fst x =? 2) (closes t))) else if r =? 3 then Failed 30 else Closed.
Example C22_example : no_panic ex_close /\ quiet (fun _ => false) /\
  CloseAll ex_close (fun _ => false) (bs "f:1") [1; 2; 3; 2] [PUser 7] =
  ([EClose 1 Closed; EClose 2 (Failed 20);
    EError (bs "event!CloseAll called from f:1") [PUser 7; PKey (bs "err"); PError 20]; EClose 3 (Failed 30);
    EError (bs "event!CloseAll called from f:1") [PUser 7; PKey (bs "err"); PError 20; PKey (bs "err"); PError 30]; EClose 2 (Failed 21);
    EError (bs "event!CloseAll called from f:1") [PUser 7; PKey (bs "err"); PError 20; PKey (bs "err"); PError 30; PKey (bs "err"); PError 21]], Some (Some [20; 30; 21])).
Proof.
  split; [|split; [intros t; reflexivity|vm_compute; reflexivity]].
  intros t r. unfold ex_close. destruct (r =? 2); [discriminate|]. destruct (r =? 3); discriminate.
Qed.
Example C22_panic_example :
  CloseAll (fun _ r => if r =? 2 then Panicked else Closed) (fun _ => false) [] [1; 2; 3] [] = ([EClose 1 Closed; EClose 2 Panicked], None).
Proof. reflexivity. Qed.
Example C22_merge_example : MergeErrors [None; Some 1; None; Some 2] = Some [1; 2] /\ MergeErrors [None; None] = None.
Proof. split; reflexivity. Qed.
