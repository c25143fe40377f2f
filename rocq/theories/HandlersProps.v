(** Property C131: handlers that pass events on, and the handlers that the sinks make. *)
From Verif Require Import Base CountlogModel HandlersModel HandlersSpec.
Open Scope Z_scope.

Section Props.
  Context {Fn Collector Executor Format Formatter Writer W : Type}.
  Notation handler := (handler Fn Collector Executor Formatter Writer).
  Notation EventHandlers := (EventHandlers Fn Collector Executor Formatter Writer).
  Variables (callFn : Fn -> event -> W -> W * ends) (count : Executor -> Collector -> site -> event -> W -> W * ends)
    (write : Formatter -> writer Writer -> event -> W -> W * ends) (rootHandle : handler -> event -> W -> W * ends).
  Notation Handle := (Handle Fn Collector Executor Formatter Writer W callFn count write rootHandle).

  Lemma served_app : forall (hd : handler -> W -> W * ends) l1 w w1 e1, served hd l1 w w1 e1 -> forall l2, (e1 <> Returned -> served hd (l1 ++ l2) w w1 e1) /\
    (e1 = Returned -> forall w2 e, served hd l2 w1 w2 e -> served hd (l1 ++ l2) w w2 e).
  Proof.
    intros hd l1 w w1 e1 S. induction S as [w|h l w w1 w2 e E S IH|h l w w1 e E N]; intros l2; cbn [app].
    - split; [congruence|]. intros _ w2 e S. exact S.
    - destruct (IH l2) as [A B]. split; [intros N; now apply (served_next hd h _ w w1); auto|]. intros R w3 e3 S3. apply (served_next hd h _ w w1); [exact E|]. now apply B.
    - split; [|congruence]. intros _. now apply served_stop.
  Qed.
  Lemma handle_cons : forall h l ev w, Handle (EventHandlers (h :: l)) ev w = let '(w, e) := Handle h ev w in match e with Returned => Handle (EventHandlers l) ev w | _ => (w, e) end.
  Proof. reflexivity. Qed.
  (** Every handler behind a handler gets the event once, in order, until one of them panics *)
  Theorem C131_handlers : forall h ls, leaves h ls -> forall ev w, served (fun h => Handle h ev) ls w (fst (Handle h ev w)) (snd (Handle h ev w)).
  Proof.
    fix IH 3. intros h ls L ev. destruct L as [l ls F|h N].
    - induction F as [|h ls1 l ls L1 F IHl]; intros w; [constructor|].
      pose proof (IH h ls1 L1 ev w) as S. specialize (IHl). cbn [List.concat]. destruct (Handle h ev w) as [w1 e1] eqn:E. cbn [fst snd] in S.
      assert (X : Handle (EventHandlers (h :: l)) ev w = match e1 with Returned => Handle (EventHandlers l) ev w1 | _ => (w1, e1) end) by (rewrite handle_cons, E; reflexivity).
      rewrite X. destruct (served_app _ _ _ _ _ S (List.concat ls)) as [A B]. destruct e1; [apply (B eq_refl), IHl|apply A; discriminate|apply A; discriminate].
    - intros w. destruct (Handle h ev w) as [w1 e1] eqn:E. cbn [fst snd]. destruct e1.
      + apply (served_next _ h [] w w1); [exact E|constructor].
      + now apply served_stop.
      + now apply served_stop.
  Qed.

  Variables (DefaultExecutor : Executor) (Stdout : Writer) (FormatterOf : Format -> site -> option Formatter) (aggOf : site -> option (option bytes)) (extractorPanics : site -> bool).
  Notation LogSite := (LogSite Fn Collector Executor Formatter Writer).
  Notation HandlerOf := (HandlerOf Fn Collector Executor Format Formatter Writer FormatterOf aggOf extractorPanics).
  Notation NewEventAggregator := (NewEventAggregator Fn Collector Executor Format Formatter Writer DefaultExecutor).
  Notation NewEventWriter := (NewEventWriter Fn Collector Executor Format Formatter Writer Stdout).
  (** The handlers that the aggregator and the writer make for a site tell that site *)
  Theorem C131_site : forall s st h, (exists e c, s = NewEventAggregator e c) \/ (exists f w, s = NewEventWriter f w) -> HandlerOf s st = Some (Some h) -> LogSite h = Some (Some st).
  Proof.
    intros s st h [(e & c & ->)|(f & w & ->)] H; cbn [HandlersModel.HandlerOf NewEventAggregator NewEventWriter] in H.
    - destruct (aggOf st) as [[agg|]|]; try discriminate. unfold createHandler in H. destruct c as [c|]; [|now injection H as <-].
      destruct (extractorPanics st); [discriminate|]. destruct (list_eq_dec _ _ _); [now injection H as <-|discriminate].
    - destruct f as [f|]; [|discriminate]. destruct (FormatterOf f st); [|discriminate]. now injection H as <-.
  Qed.
  (** What is written where, and who runs the statistics, if nothing is said *)
  Theorem C131_defaults : forall f fmt st c e w,
    FormatterOf f st = Some fmt -> HandlerOf (NewEventWriter (Some f) w) st =
      Some (Some (writeEvent Fn Collector Executor Formatter Writer st fmt (Recycle Writer (match w with Some w => w | None => Stdout end)))) /\
    (aggOf st = Some (Some (bs "counter")) -> extractorPanics st = false -> HandlerOf (NewEventAggregator e (Some c)) st =
      Some (Some (countEvent Fn Collector Executor Formatter Writer (match e with Some e => e | None => DefaultExecutor end) c st))) /\
    (forall g, HandlerOf (FuncEventSink Fn Collector Executor Format Formatter Writer g) st = Some (g st)) /\
    (forall ev (x : W) agg, aggOf st = Some (Some agg) -> exists h, HandlerOf (NewEventAggregator e None) st = Some (Some h) /\ Handle h ev x = (x, Returned)).
  Proof.
    intros f fmt st c e w E. cbn [HandlersModel.HandlerOf NewEventAggregator NewEventWriter]. rewrite E. split; [reflexivity|]. split.
    - intros A P. rewrite A. unfold createHandler. now rewrite P.
    - split; [reflexivity|]. intros ev x agg A. rewrite A. eexists. split; reflexivity.
  Qed.
  (** When there is no handler (nil, which is not called), and when HandlerOf panics *)
  Theorem C131_none : forall e c f w st,
    (HandlerOf (NewEventAggregator e c) st = Some None <->
      aggOf st = Some None \/ exists agg, aggOf st = Some (Some agg) /\ agg <> bs "counter" /\ c <> None /\ extractorPanics st = false) /\
    (HandlerOf (NewEventAggregator e c) st = None <-> aggOf st = None \/ (exists agg, aggOf st = Some (Some agg)) /\ c <> None /\ extractorPanics st = true) /\
    HandlerOf (NewEventWriter f w) st <> Some None /\
    (HandlerOf (NewEventWriter f w) st = None <-> forall f', f = Some f' -> FormatterOf f' st = None).
  Proof.
    intros e c f w st. cbn [HandlersModel.HandlerOf NewEventAggregator NewEventWriter]. split; [|split; [|split]].
    - destruct (aggOf st) as [[agg|]|]; [|split; auto|split; [discriminate|intros [?|(? & ? & _)]; discriminate]].
      unfold createHandler. destruct c as [c|]; [|split; [discriminate|intros [?|(? & _ & _ & N & _)]; [discriminate|now destruct N]]].
      destruct (extractorPanics st) eqn:X; [split; [discriminate|intros [?|(? & _ & _ & _ & N)]; discriminate]|].
      destruct (list_eq_dec _ _ _) as [->|N]; [split; [discriminate|intros [?|(? & E & N & _)]; [discriminate|injection E as <-; now destruct N]]|].
      split; [|reflexivity]. intros _. right. exists agg. repeat split; [exact N|discriminate].
    - destruct (aggOf st) as [[agg|]|]; [|split; [discriminate|intros [?|[[? ?] _]]; discriminate]|split; auto].
      unfold createHandler. destruct c as [c|]; [|split; [discriminate|intros [?|(_ & N & _)]; [discriminate|now destruct N]]].
      destruct (extractorPanics st) eqn:X; [split; [|reflexivity]; intros _; right; repeat split; [now exists agg|discriminate]|].
      destruct (list_eq_dec _ _ _); split; try discriminate; intros [?|(_ & _ & ?)]; discriminate.
    - destruct f as [f|]; [|discriminate]. destruct (FormatterOf f st); discriminate.
    - destruct f as [f|]; [|split; [discriminate|reflexivity]]. destruct (FormatterOf f st) as [x|] eqn:X; split; try discriminate; try reflexivity.
      + intro H. rewrite (H f eq_refl) in X. discriminate X.
      + intros _ f' [= <-]. exact X.
  Qed.
End Props.
Print Assumptions C131_none.
Print Assumptions C131_handlers.
Print Assumptions C131_site.
Print Assumptions C131_defaults.

Definition l_site : site := mkSite None (bs "main.f") (bs "main.go") 7 (bs "event!a") (bs "counter") [].
Notation l_handler := (handler Z Z Z Z Z).
Notation l_list := (EventHandlers Z Z Z Z Z).
Notation l_func := (FuncEventHandler Z Z Z Z Z).
(** Four functions, the third of which panics; the world tells which were called *)
Definition l_Handle (h : l_handler) (ev : event) (w : list Z) : list Z * ends :=
  Handle Z Z Z Z Z (list Z) (fun f ev w => (w ++ [f], if f =? 3 then Panicked else Returned)) (fun _ _ _ _ w => (w, Returned)) (fun _ _ _ w => (w, Returned)) (fun _ _ w => (w, Returned)) h ev w.
Example C131_example : let h := l_list [l_func 1; l_list [l_list []; l_func 2; l_func 3]; l_func 4] in
  leaves h [l_func 1; l_func 2; l_func 3; l_func 4] /\
  l_Handle h (mkEvent 10 None None 0 []) [] = ([1; 2; 3], Panicked) /\
  l_Handle (l_list [l_func 1; l_func 2; l_func 4]) (mkEvent 10 None None 0 []) [] = ([1; 2; 4], Returned).
Proof.
  cbv zeta. split; [|split; reflexivity].
  apply (leaves_list [l_func 1; l_list [l_list []; l_func 2; l_func 3]; l_func 4] [[l_func 1]; [l_func 2; l_func 3]; [l_func 4]]).
  repeat constructor; try discriminate. apply (leaves_list [l_list []; l_func 2; l_func 3] [[]; [l_func 2]; [l_func 3]]).
  repeat constructor; try discriminate. apply (leaves_list [] []). constructor.
Qed.
Example C131_site_example : let s := NewEventWriter Z Z Z Z Z Z 1 (Some 5) None in
  HandlerOf Z Z Z Z Z Z (fun f _ => Some f) (fun _ => Some None) (fun _ => false) s l_site = Some (Some (writeEvent Z Z Z Z Z l_site 5 (Recycle Z 1))) /\
  HandlerOf Z Z Z Z Z Z (fun f _ => Some f) (fun st => Some (Some (Agg st))) (fun _ => false) (NewEventAggregator Z Z Z Z Z Z 8 None (Some 9)) l_site =
    Some (Some (countEvent Z Z Z Z Z 8 9 l_site)).
Proof. split; reflexivity. Qed.

Example C131_none_example : let agg e := NewEventAggregator Z Z Z Z Z Z 8 None e in let H a x := HandlerOf Z Z Z Z Z Z (fun f _ => if f =? 5 then None else Some f) (fun _ => a) (fun _ => x) in
  H (Some None) false (agg (Some 9)) l_site = Some None /\ H (Some (Some (bs "timer"))) false (agg (Some 9)) l_site = Some None /\
  H (Some (Some (bs "timer"))) true (agg (Some 9)) l_site = None /\ H (Some (Some (bs "timer"))) true (agg None) l_site <> None /\ H None false (agg None) l_site = None /\
  H None false (NewEventWriter Z Z Z Z Z Z 1 (Some 5) None) l_site = None /\ H None false (NewEventWriter Z Z Z Z Z Z 1 None None) l_site = None.
Proof. cbv zeta. repeat split; discriminate. Qed.

(** Not every handler tells a site: functions tell nil, and an empty list panics *)
Definition C131_full : Prop := forall h : l_handler, exists st, LogSite Z Z Z Z Z h = Some (Some st).
Theorem C131_site_refuted : (forall f, LogSite Z Z Z Z Z (l_func f) = Some None) /\ LogSite Z Z Z Z Z (l_list []) = None /\
  forall f l, LogSite Z Z Z Z Z (l_list (l_func f :: l)) = Some None.
Proof. repeat split. Qed.
Print Assumptions C131_site_refuted.
Theorem C131_full_refuted : ~ C131_full.
Proof. intros F. destruct (F (l_list [])) as [st E]. discriminate E. Qed.
Print Assumptions C131_full_refuted.
