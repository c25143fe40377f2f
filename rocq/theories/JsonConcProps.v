(** C139: encoders made and kept in several goroutines. *)
From Verif Require Import Base JsonCompModel JsonConcModel JsonConcSpec JsonConcProofs.
Open Scope list_scope.

(** However the calls interleave, and whatever was encoded before: the encoder a call returns is the one that would be made for the type without the caches, but for the texts in the encoders
    of map keys that tell that a type can not be encoded. *)
Theorem C139_encoders : forall types typeName fuel evs s g c t r, run types typeName fuel init evs = Some s -> c = CType t \/ c = CObject t -> calls s g = Some (c, Ret r) ->
  exists e f e0, r = inl e /\ EncoderOf types typeName f t = Some e0 /\ strip_keys e = strip_keys e0.
Proof.
  intros types typeName fuel evs s g c t r R Hc Q. destruct (v_calls _ _ _ _ (inv_run _ _ _ _ _ R) _ _ _ Q) as [F _]. destruct Hc as [-> | ->]; destruct r as [e|ke]; try (destruct F; fail);
    destruct F as (f & e0 & A & B); exists e, f, e0; auto.
Qed.
(** So it is exactly that encoder if no type of a map key in it, nor a type in one, is one that can not be encoded: then what MarshalToString writes does not depend on other calls. *)
Theorem C139_exact_partial : forall types typeName fuel evs s g c t r f e0, run types typeName fuel init evs = Some s -> c = CType t \/ c = CObject t -> calls s g = Some (c, Ret r) ->
  EncoderOf types typeName f t = Some e0 -> clean_keys e0 = true ->
  r = inl e0 /\ forall ff64 ff32 v, MarshalToString ff64 ff32 types typeName f t v = match r with inl e => encode ff64 ff32 types (EncoderOf types typeName f) v e [] | inr _ => None end.
Proof.
  intros types typeName fuel evs s g c t r f e0 R Hc Q E0 Cl. destruct (C139_encoders _ _ _ _ _ _ _ _ _ R Hc Q) as (e & f1 & e1 & -> & E1 & St). unfold EncoderOf in *.
  assert (X1 := JsonCompProofs.encoderOf_mono types typeName f (f + f1) [] t e0 ltac:(lia) E0). assert (X2 := JsonCompProofs.encoderOf_mono types typeName f1 (f + f1) [] t e1 ltac:(lia) E1).
  assert (e0 = e1) by congruence. subst e1. rewrite (clean_keys_eq _ Cl _ St). split; [reflexivity|]. intros ff64 ff32 v. unfold MarshalToString, EncoderOf. rewrite E0. reflexivity.
Qed.
(** So where no map has keys of a type that can not be encoded, whole values are written as without caches: the encoder of the value and those of the values in interfaces in it may each be what
    any call for their types has returned, at any time of any execution. *)
Theorem C139_marshal_partial : forall types typeName fuel f (ans : nat -> option encoder),
  (forall t e, ans t = Some e -> exists evs s g c, run types typeName fuel init evs = Some s /\ (c = CType t \/ c = CObject t) /\ calls s g = Some (c, Ret (inl e))) ->
  (forall t e0, EncoderOf types typeName f t = Some e0 -> clean_keys e0 = true /\ ans t <> None) ->
  forall ff64 ff32 t v text, MarshalToString ff64 ff32 types typeName f t v = Some text -> exists e, ans t = Some e /\ encode ff64 ff32 types ans v e [] = Some text.
Proof.
  intros types typeName fuel f ans Ha Hc ff64 ff32 t v text M.
  assert (Same : forall t e0, EncoderOf types typeName f t = Some e0 -> ans t = Some e0).
  { intros u e0 E. destruct (Hc _ _ E) as [Cl N]. destruct (ans u) as [e|] eqn:A; [|contradiction]. destruct (Ha _ _ A) as (evs & s & g & c & R & C & Q).
    destruct (C139_exact_partial _ _ _ _ _ _ _ _ _ _ _ R C Q E Cl) as [X _]. injection X as ->. reflexivity. }
  unfold MarshalToString in M. destruct (EncoderOf types typeName f t) as [e0|] eqn:E; [|discriminate M]. exists e0. split; [exact (Same _ _ E)|]. cbn [obind] in M.
  exact (JsonCompProofs.encode_mono types ff64 ff32 _ _ Same v e0 [] text M).
Qed.
(** The encoder of a key in an interface likewise. *)
Theorem C139_keys : forall types typeName fuel evs s g p t r, run types typeName fuel init evs = Some s -> calls s g = Some (CKey p t, Ret r) ->
  exists ke f e0, r = inr ke /\ encoderOf types typeName f (p ++ bs " [mapKey]") t = Some e0 /\ stripK ke = stripK (keyEncoderOf types t e0) /\ (cleanK (keyEncoderOf types t e0) = true -> ke = keyEncoderOf types t e0).
Proof.
  intros types typeName fuel evs s g p t r R Q. destruct (v_calls _ _ _ _ (inv_run _ _ _ _ _ R) _ _ _ Q) as [F _]. destruct r as [e|ke]; [destruct F|]. destruct F as (f & p0 & e0 & A & B).
  destruct (defined_prefix _ _ _ _ (p ++ bs " [mapKey]") _ _ A) as [e1 A1]. exists ke, f, e1. split; [reflexivity|]. split; [exact A1|].
  assert (St : stripK ke = stripK (keyEncoderOf types t e1)) by (rewrite B; apply key_same; exact (prefix_same _ _ _ _ _ _ _ _ A A1)). split; [exact St|]. intro C. exact (cleanK_eq _ C _ St).
Qed.
(** Whatever the others have done or are in the middle of, a call for a type whose encoder can be made at all returns after finitely many steps of its own. *)
Theorem C139_ends : forall types typeName fuel evs s g c p, run types typeName fuel init evs = Some s -> calls s g = Some (c, p) ->
  match c with CType t | CObject t => encoderOf types typeName fuel [] t <> None | CKey p t => encoderOf types typeName fuel (p ++ bs " [mapKey]") t <> None end ->
  exists n s' r, run types typeName fuel s (repeat (Step g) n) = Some s' /\ calls s' g = Some (c, Ret r).
Proof.
  intros types typeName fuel evs s g c p R Q En. assert (Hi := inv_run _ _ _ _ _ R). destruct (v_calls _ _ _ _ Hi _ _ _ Q) as [_ F]. destruct (alone _ _ _ _ _ _ _ Hi Q (F En)) as (n & s' & r & A & B & _).
  exists n, s', r. auto.
Qed.
(** Once a call for a type has returned, every later one for it finds an encoder at once. *)
Theorem C139_cached : forall types typeName fuel evs s g c t r evs' s' g' c', run types typeName fuel init evs = Some s -> c = CType t \/ c = CObject t -> calls s g = Some (c, Ret r) ->
  run types typeName fuel s evs' = Some s' -> calls s' g' = None -> c' = CType t \/ c' = CObject t ->
  exists s'' e, run types typeName fuel s' [Begin g' c'; Step g'] = Some s'' /\ calls s'' g' = Some (c', Ret (inl e)) /\ ecache s'' = ecache s' /\ kcache s'' = kcache s'.
Proof.
  intros types typeName fuel evs s g c t r evs' s' g' c' R Hc Q R' Q' Hc'. destruct (kept_run _ _ _ _ _ R _ _ _ _ Hc Q) as [K|[]]. assert (K' := find_up _ _ _ _ _ _ _ R' K).
  destruct (find (ecache s') t) as [e|] eqn:X; [|contradiction].
  destruct Hc' as [-> | ->]; cbn [run step]; rewrite Q'; cbn [calls program]; rewrite set_same; cbn; rewrite X; eexists; exists e; (split; [reflexivity|]); cbn [calls ecache kcache]; rewrite set_same; auto.
Qed.

(** * Examples *)

(** 0 is chan int, 1 map[chan int]int, 2 struct { F map[chan int]int }, 3 int, 4 map[string]int, 5 string, 6 map[interface{}]int, 7 interface{} *)
Definition exTypes (t : nat) : shape :=
  match t with
  | 0%nat => SChan
  | 1%nat => SMap 0 3
  | 2%nat => SStruct [Field (bs "F") [] 1]
  | 3%nat => SInt I64
  | 4%nat => SMap 5 3
  | 5%nat => SString
  | 6%nat => SMap 7 3
  | 7%nat => SIface
  | _ => SOther
  end.
Definition exName (t : nat) : bytes := bs "chan int".
Definition exRun := run exTypes exName 5 init.
Definition ret (s : option state) (g : nat) : option result := match s with Some s => match calls s g with Some (_, Ret r) => Some r | _ => None end | None => None end.
Definition steps (g n : nat) : list event := repeat (Step g) n.

(** Two goroutines ask for the encoder of map[string]int at once and both make it *)
Example C139_encoders_example :
  let s := exRun ([Begin 0 (CType 4); Begin 1 (CObject 4); Step 0; Step 1; Step 1; Step 0; Step 1; Step 0] ++ steps 1 2 ++ steps 0 1) in
  ret s 0 = Some (inl (EMap (KString EStr) (EInt I64))) /\ ret s 1 = Some (inl (EMap (KString EStr) (EInt I64))).
Proof. vm_compute. auto. Qed.
Example C139_exact_example : clean_keys (EMap (KString EStr) (EInt I64)) = true /\ EncoderOf exTypes exName 5 4 = Some (EMap (KString EStr) (EInt I64)).
Proof. vm_compute. auto. Qed.
(** 8 is []interface{}; a value in it whose encoder another goroutine made *)
Definition exTypes2 (t : nat) : shape := match t with 4%nat => SMap 5 3 | 3%nat => SInt I64 | 5%nat => SString | 7%nat => SIface | 8%nat => SSlice 7 | _ => SBool end.
Definition exAns2 (t : nat) : option encoder :=
  match ret (run exTypes2 exName 5 init ([Begin 0 (CType t); Begin 1 (CObject t); Step 0] ++ steps 1 (if (t =? 4)%nat then 5 else 3))) 1 with Some (inl e) => Some e | _ => None end.
Example C139_marshal_example :
  exAns2 8 = Some (ESlice EDynamic) /\ exAns2 4 = Some (EMap (KString EStr) (EInt I64)) /\
  MarshalToString (fun _ => []) (fun _ => []) exTypes2 exName 5 8 (VSeq [VIface (Some (4%nat, VMap (Some [(VStr (bs "a"), VInt 7)])))]) = Some (bs "[{""a"":7}]") /\
  encode (fun _ => []) (fun _ => []) exTypes2 exAns2 (VSeq [VIface (Some (4%nat, VMap (Some [(VStr (bs "a"), VInt 7)])))]) (ESlice EDynamic) [] = Some (bs "[{""a"":7}]").
Proof. vm_compute. auto. Qed.
(** A string as a key of a map[interface{}]int *)
Example C139_keys_example : ret (exRun ([Begin 0 (CType 6)] ++ steps 0 4 ++ [Begin 1 (CKey [] 5)] ++ steps 1 2)) 1 = Some (inr (KString EStr)).
Proof. vm_compute. reflexivity. Qed.
Example C139_ends_example : encoderOf exTypes exName 5 [] 2 <> None /\ ret (exRun ([Begin 1 (CType 4); Begin 0 (CType 2)] ++ steps 0 4)) 0 <> None /\ ret (exRun ([Begin 1 (CType 4); Begin 0 (CType 2)] ++ steps 0 3)) 0 = None.
Proof. vm_compute. repeat split; discriminate. Qed.
Example C139_cached_example : ret (exRun ([Begin 0 (CType 4)] ++ steps 0 4 ++ [Begin 1 (CObject 4); Step 1])) 1 = Some (inl (EMap (KString EStr) (EInt I64))).
Proof. vm_compute. reflexivity. Qed.

(** * What does not hold *)

(** An encoder does not depend on what else is encoded. *)
Definition C139_full : Prop := forall types typeName fuel evs s g t e f e0, run types typeName fuel init evs = Some s -> calls s g = Some (CType t, Ret (inl e)) -> EncoderOf types typeName f t = Some e0 -> e = e0.
Definition exText (r : option result) (v : val) : option bytes :=
  match r with Some (inl e) => encode (fun _ => []) (fun _ => []) exTypes (EncoderOf exTypes exName 5) v e [] | _ => None end.
(** One goroutine alone: what is written for a map[chan int]int depends on whether a struct with such a field was written before. *)
Theorem C139_history_refuted : let v := VMap (Some [(VOther, VInt 7)]) in
  exText (ret (exRun ([Begin 0 (CObject 1)] ++ steps 0 5)) 0) v = Some (bs "{""""can not encode chan int  [mapKey] to json"""":7}") /\
  exText (ret (exRun ([Begin 1 (CObject 2)] ++ steps 1 5 ++ [Begin 0 (CObject 1)] ++ steps 0 4)) 0) v = Some (bs "{""""can not encode chan int ""F"": .F [mapKey] to json"""":7}").
Proof. vm_compute. auto. Qed.
(** Two calls for the same type at the same time get encoders that write different texts. *)
Theorem C139_race_refuted : let s := exRun ([Begin 0 (CType 1); Begin 1 (CType 1); Begin 2 (CType 2)] ++ steps 2 2 ++ steps 1 1 ++ steps 0 3 ++ steps 2 1 ++ steps 1 2 ++ steps 0 1) in
  let v := VMap (Some [(VOther, VInt 7)]) in
  exText (ret s 0) v <> None /\ exText (ret s 1) v <> None /\ exText (ret s 0) v <> exText (ret s 1) v.
Proof. vm_compute. repeat split; discriminate. Qed.
Theorem C139_full_refuted : ~ C139_full.
Proof.
  intro H. destruct (exRun ([Begin 1 (CType 2)] ++ steps 1 4 ++ [Begin 0 (CType 1)] ++ steps 0 3)) as [s|] eqn:R; [|vm_compute in R; discriminate R].
  assert (X := H exTypes exName 5%nat _ s 0%nat 1%nat (EMap (KNumber (EUnsupported (bs """can not encode chan int ""F"": .F [mapKey] to json"""))) (EInt I64)) 5%nat
    (EMap (KNumber (EUnsupported (bs """can not encode chan int  [mapKey] to json"""))) (EInt I64)) R).
  assert (Q : calls s 0%nat = Some (CType 1, Ret (inl (EMap (KNumber (EUnsupported (bs """can not encode chan int ""F"": .F [mapKey] to json"""))) (EInt I64))))).
  { unfold exRun in R. vm_compute in R. injection R as <-. vm_compute. reflexivity. }
  specialize (X Q eq_refl). vm_compute in X. discriminate X.
Qed.

Print Assumptions C139_encoders.
Print Assumptions C139_exact_partial.
Print Assumptions C139_marshal_partial.
Print Assumptions C139_keys.
Print Assumptions C139_ends.
Print Assumptions C139_cached.
Print Assumptions C139_history_refuted.
Print Assumptions C139_race_refuted.
Print Assumptions C139_full_refuted.
