(** C52: witch's event queue and its HTTP handler. *)
From Verif Require Import Base JsonSpec JsonLexProofs JsonCompProofs.
From Verif Require MsgfmtModel MsgfmtProps CountlogModel OutputModel OutputProps.
From Verif Require Import WitchModel WitchSpec WitchProofs.
Local Notation scan := JsonLexProofs.scan.

(** * The queue *)
(** The records taken out are, in order, the first ones of those that were accepted; the rest is in the queue, at most 10240. *)
Theorem C52_order : forall l q o, run newEventQueue l = Some (q, o) ->
  accepted o = taken o ++ msgChan q /\ (List.length (accepted o) <= List.length (taken o) + Z.to_nat 10240)%nat.
Proof.
  intros l q o R. pose proof (order _ _ _ R) as A. split; [exact A|]. rewrite A, app_length. apply room in R. unfold capacity in R. apply Nat.add_le_mono_l. exact R.
Qed.
(** A request is responded to at most once, with the records it took, and takes nothing afterwards; these are at most 1001. *)
Theorem C52_response : forall r l q o, run newEventQueue l = Some (q, o) ->
  (responses r o = [] \/ responses r o = [bs "[[" ++ commas (taken_by r o) ++ bs "]"]) /\ (List.length (taken_by r o) <= Z.to_nat 1001)%nat.
Proof.
  intros r l q o R. pose proof (requests r _ _ _ R) as A. change (Z.to_nat 1001) with (S limit). unfold at_rpc in A. destruct (reqs q r) as [| |ev|].
  - destruct A as (A & B & _). rewrite A. split; [left; exact B|apply Nat.le_0_l].
  - destruct A as (A & B & _). rewrite A. split; [left; exact B|apply Nat.le_0_l].
  - destruct A as (A & B & C & _). rewrite A. split; [left; exact B|lia].
  - destruct A as (A & B & _). split; [right; rewrite A, body_eq; reflexivity|exact B].
Qed.
(** It is responded to only with 1001 records or when there are no more. *)
Theorem C52_complete : forall r l q o e q' o' b, run newEventQueue l = Some (q, o) -> step q e = Some (q', o') -> In (OResponse r b) o' ->
  List.length (taken_by r (o ++ o')) = Z.to_nat 1001 \/ accepted o = taken o.
Proof.
  intros r l q o e q' o' b R E I. pose proof (order _ _ _ R) as O. pose proof (requests r l q o R) as A.
  assert (M : forall (x : bool) d y, In (OResponse r b) ((if x then [OMessage d] else []) ++ [OReturn y None]) -> False).
  { intros [] d y J; cbn in J; intuition discriminate. }
  steps E; try (cbn in I; intuition discriminate); try (exfalso; exact (M _ _ _ I)).
  - right. rewrite O. apply app_nil_r.
  - destruct I as [I|[I|[]]]; [discriminate I|]. injection I as -> <-. left. rewrite RQ in A. destruct A as (A & _ & C & _). rewrite taken_by_app.
    change (taken_by r [OTake r buf; OResponse r (body (ev ++ [buf]))]) with ((if Nat.eqb r r then [buf] else []) ++ []). rewrite Nat.eqb_refl, app_nil_r, A.
    apply Nat.ltb_lt in LIM. rewrite app_length in *. change (Z.to_nat 1001) with (S limit). change (List.length [buf]) with 1%nat in *. lia.
Qed.
(** A request that has begun to collect goes on, whatever the others do, and is responded to after at most 1001 passes. *)
Theorem C52_finishes : forall r l q o, run newEventQueue l = Some (q, o) ->
  (passes r l <= Z.to_nat 1001)%nat /\
  (In (ETimeout r) l \/ taken_by r o <> [] -> responses r o = [] -> exists q' o', step q (ENext r) = Some (q', o')).
Proof.
  intros r l q o R. pose proof (requests r _ _ _ R) as A. pose proof limit_pos as LP. change (Z.to_nat 1001) with (S limit). split.
  - unfold at_rpc in A. destruct (reqs q r); [destruct A as (_ & _ & ->)|destruct A as (_ & _ & ->)|destruct A as (B & _ & C & D)|destruct A as (_ & _ & C)]; lia.
  - intros B N. assert (T : match reqs q r with RFresh | RWaits => ~ In (ETimeout r) l | _ => True end).
    { clear B N A. revert R. apply (run_ind (fun l q o => match reqs q r with RFresh | RWaits => ~ In (ETimeout r) l | _ => True end)); [intros []|].
      clear. intros l q o e q' o' _ IH E. assert (G : e <> ETimeout r -> match reqs q r with RFresh | RWaits => ~ In (ETimeout r) (l ++ [e]) | _ => True end).
      { intro NE. destruct (reqs q r); auto; intro I; apply in_app_or in I as [I|[I|[]]]; auto. }
      steps E; cbn [reqs set]; try (apply G; discriminate).
      all: match goal with |- context [Nat.eqb ?a ?b] => destruct (Nat.eqb_spec a b) as [X|X] end;
        [subst; rewrite ?RQ in *; try exact I; apply G; discriminate|apply G; congruence]. }
    unfold at_rpc in A. cbn [step]. destruct (reqs q r) as [| |ev|] eqn:RQ.
    + destruct A as (A & _). destruct B as [B|B]; [contradiction (T B)|contradiction (B A)].
    + destruct A as (A & _). destruct B as [B|B]; [contradiction (T B)|contradiction (B A)].
    + destruct (msgChan q) as [|buf c]; [eauto|]. destruct (Nat.ltb _ _); eauto.
    + destruct A as (A & _). rewrite N in A. discriminate A.
Qed.
(** Write always returns the length; it accepts the record unless 10240 are in the queue. *)
Theorem C52_write : forall l q o b, run newEventQueue l = Some (q, o) -> exists q' msgs, step q (EWrite b) = Some (q', map OMessage msgs ++
  [OReturn (List.length b) (if Nat.ltb (List.length (accepted o)) (List.length (taken o) + Z.to_nat 10240) then Some b else None)]).
Proof.
  intros l q o b R. apply order in R. rewrite R, app_length. cbn [step]. unfold Write.
  replace (Nat.ltb (List.length (taken o) + List.length (msgChan q)) (List.length (taken o) + Z.to_nat 10240)) with (Nat.ltb (List.length (msgChan q)) capacity).
  - destruct (Nat.ltb _ capacity); [exists (mkQueue (msgChan q ++ [b]) (droppedEventsCount q) (reqs q)), []; reflexivity|]. cbv zeta.
    eexists. exists (if ((droppedEventsCount q + 1) mod 2 ^ 64) mod 10000 =? 1 then [(droppedEventsCount q + 1) mod 2 ^ 64] else []). destruct (_ =? 1); reflexivity.
  - unfold capacity. generalize (Z.to_nat 10240). intro k. destruct (Nat.ltb_spec (List.length (msgChan q)) k); symmetry; [apply Nat.ltb_lt|apply Nat.ltb_ge]; lia.
Qed.
(** The drops are counted, and told of at the 1st, the 10001st, ... *)
Theorem C52_dropped : forall l q o, run newEventQueue l = Some (q, o) ->
  droppedEventsCount q = Z.of_nat (drops o) mod 2 ^ 64 /\ (Z.of_nat (drops o) < 2 ^ 64 -> messages o = due (drops o)).
Proof. intros l q o R. split; [apply (counter _ _ _ R)|apply (told _ _ _ R)]. Qed.

(** * The response *)
(** The response is never JSON if the records are. *)
Theorem C52_json_refuted : forall r l q o b js j, run newEventQueue l = Some (q, o) -> In b (responses r o) -> values (taken_by r o) js -> ~ parses b j.
Proof.
  intros r l q o b js j R I V. destruct (C52_response r _ _ _ R) as [[A|A] _]; rewrite A in I; [destruct I|]. destruct I as [<-|[]].
  destruct (array_value _ _ V) as (n & E). exact (bracket_value _ _ _ _ E).
Qed.
(** Without its first byte it is: an array of the values. *)
Theorem C52_json_partial : forall r l q o b js, run newEventQueue l = Some (q, o) -> In b (responses r o) -> values (taken_by r o) js -> parses (tl b) (JArr js).
Proof.
  intros r l q o b js R I V. destruct (C52_response r _ _ _ R) as [[A|A] _]; rewrite A in I; [destruct I|]. destruct I as [<-|[]].
  destruct (array_value _ _ V) as (n & E). exists n, []. split; [exact E|reflexivity].
Qed.
(** If the records are those of the JSON format, which are no JSON (C48), neither the response nor the response without its first byte is. *)
Theorem C52_records_refuted : forall decimal int64Type typeOf encoderOf enc r l q o b j,
  run newEventQueue l = Some (q, o) -> In b (responses r o) -> taken_by r o <> [] -> encoderOf int64Type = Some enc ->
  Forall (fun text => exists st f ev t, ~ In 34 (CountlogModel.Func st) /\ OutputModel.jsonFormatterOf decimal int64Type typeOf encoderOf st = Some f /\
    enc (MsgfmtModel.VAny int64Type (CountlogModel.Timestamp ev)) = Some t /\ Forall (fun c => c = 45 \/ 48 <= c <= 57) t /\ OutputModel.jsonFormat int64Type f [] ev = Some text) (taken_by r o) ->
  ~ parses b j /\ ~ parses (tl b) j.
Proof.
  intros decimal int64Type typeOf encoderOf enc r l q o b j R I NE EE F. destruct (C52_response r _ _ _ R) as [[A|A] _]; rewrite A in I; [destruct I|]. destruct I as [<-|[]].
  destruct (taken_by r o) as [|e es]; [congruence|]. inversion F as [|x y (st & f & ev & t & Q & FM & ET & TD & J) _]; subst.
  assert (S : forall z, scan Out (e ++ z) = None) by (intro z; apply scan_app_none; eapply OutputProps.json_scan; eassumption).
  assert (S' : scan Out (commas (e :: es) ++ bs "]") = None) by (rewrite commas_flat, <- app_assoc; apply S).
  split; intro P; apply parses_scan in P; cbn in P, S'; rewrite S' in P; discriminate P.
Qed.

(** * The claim in full, refuted *)
Definition C52_full : Prop := forall r l q o b js, run newEventQueue l = Some (q, o) -> In b (responses r o) -> values (taken_by r o) js -> exists j, parses b j.
Definition ex_run := [ERequest 0; ETimeout 0; ENext 0].
Theorem C52_full_refuted : ~ C52_full.
Proof.
  intro H. assert (R : exists q, run newEventQueue ex_run = Some (q, [OResponse 0 (bs "[[]")])) by (eexists; vm_compute; reflexivity).
  destruct R as (q & R). destruct (H 0%nat _ _ _ (bs "[[]") [] R) as (j & P); [left; reflexivity|constructor|].
  exact (C52_json_refuted 0 _ _ _ _ [] _ R (or_introl eq_refl) (Forall2_nil _) P).
Qed.

(** * Examples *)
(** Two requests share three records; one waits for nothing. *)
Definition ex_two := [ERequest 0; ERequest 1; EWrite (bs "{}"); EFirst 1; EWrite (bs "1 "); EWrite (bs "null"); ETimeout 0; ENext 0; ENext 1; ENext 1; ERequest 2; ETimeout 2; ENext 2; ENext 0].
Example C52_two_example : exists q, run newEventQueue ex_two = Some (q,
  [OReturn 2 (Some (bs "{}")); OTake 1 (bs "{}"); OReturn 2 (Some (bs "1 ")); OReturn 4 (Some (bs "null")); OTake 0 (bs "1 "); OTake 1 (bs "null"); OResponse 1 (bs "[[{},null]");
   OResponse 2 (bs "[[]"); OResponse 0 (bs "[[1 ]")]).
Proof. eexists. vm_compute. reflexivity. Qed.
Example C52_values_example : values [bs "{}"; bs "null"] [JObj []; JNull] /\ values [bs "1 "] [JNum (bs "1")] /\ parses (bs "[{},null]") (JArr [JObj []; JNull]).
Proof.
  assert (P : forall t j, (exists r, value 5 t = Some (j, r) /\ skip_ws r = []) -> parses t j) by (intros t j (r & H); exists 5%nat, r; exact H).
  repeat split; repeat constructor; apply P; eexists; (split; [vm_compute; reflexivity|reflexivity]).
Qed.
(** The queue full: the two last records are dropped, one message; a request takes 1001. *)
Definition ex_full := repeat (EWrite (bs "7")) (Z.to_nat 10242) ++ [ERequest 3; EFirst 3] ++ repeat (ENext 3) (Z.to_nat 1000).
Example C52_full_example : match run newEventQueue ex_full with
  | Some (q, o) => Nat.eqb (List.length (taken_by 3 o)) (Z.to_nat 1001) && Nat.eqb (List.length (responses 3 o)) 1 && Nat.eqb (List.length (msgChan q)) (Z.to_nat 9239) &&
      Nat.eqb (drops o) 2 && (droppedEventsCount q =? 2) && match messages o with [n] => n =? 1 | _ => false end
  | None => false end = true.
Proof. vm_compute. reflexivity. Qed.
Example C52_due_example : due (Z.to_nat 10002) = [1; 10001].
Proof. vm_compute. reflexivity. Qed.

(** A request takes a record of the JSON format. *)
Example C52_records_example : exists q text b, run newEventQueue [EWrite text; ERequest 0; EFirst 0; ENext 0] = Some (q, [OReturn (List.length text) (Some text); OTake 0 text; OResponse 0 b]) /\
  exists st f ev, OutputModel.jsonFormatterOf OutputProps.ex_dec 9 (fun _ => 0) OutputProps.ex_json st = Some f /\ OutputModel.jsonFormat 9 f [] ev = Some text /\
    forall j, ~ parses b j /\ ~ parses (tl b) j.
Proof.
  pose (st := CountlogModel.mkSite None (bs "main") (bs "m.go") 3 (bs "e") [] [MsgfmtModel.VStr (bs "k"); MsgfmtModel.VAny 7 5]).
  pose (ev := CountlogModel.mkEvent 30 None None 4 [MsgfmtModel.VStr (bs "k"); MsgfmtModel.VAny 7 6]).
  destruct (OutputModel.jsonFormatterOf OutputProps.ex_dec 9 (fun _ => 0) OutputProps.ex_json st) as [f|] eqn:F; [|vm_compute in F; discriminate F].
  destruct (OutputModel.jsonFormat 9 f [] ev) as [text|] eqn:J; [|exfalso; assert (F' := F); cbn in F'; injection F' as <-; cbn in J; discriminate J].
  assert (R : forall t, exists q, run newEventQueue [EWrite t; ERequest 0; EFirst 0; ENext 0] = Some (q, [OReturn (List.length t) (Some t); OTake 0 t; OResponse 0 (body [t])])).
  { intro t. eexists. unfold run, newEventQueue, step, Write. cbn [msgChan droppedEventsCount reqs List.length].
    change (Nat.ltb 0 capacity) with (Nat.leb 1 capacity). rewrite (proj2 (Nat.leb_le 1 capacity)) by (unfold capacity; lia).
    cbn [obind fst snd app msgChan droppedEventsCount reqs set Nat.eqb]. reflexivity. }
  destruct (R text) as (q & Q). rewrite body_eq in Q. exists q, text. eexists. split; [exact Q|].
  exists st, f, ev. split; [exact F|]. split; [exact J|]. intro j.
  eapply (C52_records_refuted OutputProps.ex_dec 9 (fun _ => 0) OutputProps.ex_json _ 0 _ _ _ _ _ Q).
  - left. reflexivity.
  - discriminate.
  - reflexivity.
  - constructor; [|constructor]. exists st, f, ev, [52]. split; [apply MsgfmtProps.ex_notin; reflexivity|]. split; [exact F|]. split; [reflexivity|]. split; [|exact J].
    constructor; [right; split; discriminate|constructor].
Qed.

Print Assumptions C52_order.
Print Assumptions C52_response.
Print Assumptions C52_complete.
Print Assumptions C52_finishes.
Print Assumptions C52_write.
Print Assumptions C52_dropped.
Print Assumptions C52_json_refuted.
Print Assumptions C52_json_partial.
Print Assumptions C52_records_refuted.
Print Assumptions C52_full_refuted.
