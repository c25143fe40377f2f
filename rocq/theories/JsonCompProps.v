(** Properties C07 and C08: composite JSON output, and building encoders. *)
From Verif Require Import Base DecimalSpec JsonStrSpec JsonSpec JsonCompModel JsonStrProps JsonFloatProps
  JsonCompSpec JsonCompProofs.
From Coq Require Import Reals.
From Flocq Require Import Core IEEE754.Binary IEEE754.Bits.
Open Scope Z_scope.
Open Scope list_scope.

(** MarshalToString on a value [v] of a type [t] of finite structure, where [v] only contains what the
    property allows (there is some JSON tree that it means): a text is produced, it parses by the JSON grammar,
    and any tree it parses to is one that the value means. *)
Theorem C07_valid_json : forall formatFloat64 formatFloat32 types typeName t v,
  finite_type types t -> (exists j, means types t v j) ->
  exists text,
    (exists fuel0, forall fuel, (fuel0 <= fuel)%nat ->
       MarshalToString formatFloat64 formatFloat32 types typeName fuel t v = Some text) /\
    (exists j, parses text j) /\
    (forall j, parses text j -> means types t v j).
Proof.
  intros ff64 ff32 types tn t v Fin (j & M).
  destruct (marshal_ok types tn ff64 ff32 t v j Fin M) as (F0 & H).
  destruct (H F0 (le_n _)) as (text & j' & E & P & M'). exists text. split; [|split; [eauto|]].
  - exists F0. intros F HF. eapply marshal_mono; eauto.
  - intros j'' P''. now rewrite (parses_unique _ _ _ P'' P).
Qed.
Print Assumptions C07_valid_json.

(** struct { Name string; hidden bool; Tags []string `json:"t,omitempty"`; M map[int64]*bool; I interface{} } *)
Definition ex_types (t : nat) : shape :=
  match t with
  | 0 => SStruct [Field (bs "Name") [] 1; Field (bs "hidden") [] 2; Field (bs "Tags") (bs "t,omitempty") 3;
                  Field (bs "M") [] 4; Field (bs "I") [] 5]
  | 1 => SString | 2 => SBool | 3 => SSlice 1 | 4 => SMap 6 7 | 5 => SIface | 6 => SInt I64 | 7 => SPtr 2
  | _ => SOther
  end%nat.
Definition ex_val : val :=
  VStruct [VStr (bs "a""b"); VBool true; VSeq [VStr (bs "x"); VStr []];
           VMap (Some [(VInt (-5), VPtr None); (VInt 7, VPtr (Some (VBool false)))]);
           VIface (Some (6%nat, VInt 12))].
Example C07_ex_text : MarshalToString (fun _ => []) (fun _ => []) ex_types (fun _ => []) 9 0 ex_val =
  Some (bs "{""Name"":""a\""b"",""t"":[""x"",""""],""M"":{""-5"":null,""7"":false},""I"":12}").
Proof. vm_compute. reflexivity. Qed.
Lemma ex_finite : finite_type ex_types 0.
Proof.
  eapply (builds_finite ex_types (fun _ => []) 9 []). 
  vm_compute. reflexivity.
Qed.
Example C07_ex_means : exists j, means ex_types 0 ex_val j.
Proof.
  assert (G1 : good_string (bs "a""b")).
  { split; [repeat constructor; cbn; lia|]. intros (p & c & E & F & C).
    destruct p as [|a [|b [|c' [|? ?]]]]; cbn in E; try discriminate; injection E as ? ?; subst.
    inversion F as [|? ? _ F']. inversion F' as [|? ? N _]. apply N. unfold must_escape. auto. }
  assert (G2 : good_string (bs "x")).
  { split; [repeat constructor; cbn; lia|]. intros (p & c & E & F & C).
    destruct p as [|a [|b ?]]; cbn in E; try discriminate; injection E as ?; subst. unfold must_escape in C. cbn in C. lia. }
  assert (G3 : good_string []).
  { split; [constructor|]. intros (p & c & E & _). destruct p; discriminate. }
  eexists. eapply m_struct; [reflexivity|].
  assert (V : forall c r tg x, 65 <= c <= 90 -> ex_types x <> SFunc -> ex_types x <> SChan ->
    field_visible ex_types (Field (c :: r) tg x)).
  { intros c r tg x Hc H1 H2. split; auto. exists c, r. auto. }
  assert (Pl : forall s, forallb (fun b => (97 <=? b) && (b <=? 122) || (65 <=? b) && (b <=? 90)) s = true ->
    Forall (fun b => ~ must_escape b) s).
  { intros s H. apply Forall_forall. intros b Hb. rewrite forallb_forall in H. specialize (H b Hb).
    unfold must_escape. lia. }
  eapply mf_keep.
  { eapply fj_own; [apply V; [split; vm_compute; discriminate|discriminate|discriminate]|]. split; [cbn; tauto|auto]. }
  { now apply Pl. } { now apply m_str. }
  eapply mf_skip.
  { apply fj_hidden. intros ((c & r & E & H) & _). vm_compute in E. injection E as <- _. lia. }
  eapply mf_keep.
  { eapply (fj_tag _ _ (bs "t")); [apply V; [split; vm_compute; discriminate|discriminate|discriminate]| |discriminate|discriminate].
    split; [intros [H|[]]; discriminate|]. right. exists (bs "omitempty"). reflexivity. }
  { now apply Pl. } { eapply m_slice; [reflexivity|]. repeat (eapply ml_cons; [now apply m_str|]). apply ml_nil. }
  eapply mf_keep.
  { eapply fj_own; [apply V; [split; vm_compute; discriminate|discriminate|discriminate]|]. split; [cbn; tauto|auto]. }
  { now apply Pl. }
  { eapply m_map; [reflexivity|]. eapply mm_cons.
    - eapply (k_int _ _ I64 _ (bs "-5")); [reflexivity|cbn; lia|]. right. split; [lia|]. exists (bs "5").
      split; [reflexivity|]. vm_compute. repeat split; auto; discriminate.
    - eapply m_nil_ptr. reflexivity.
    - eapply mm_cons.
      + eapply (k_int _ _ I64 _ (bs "7")); [reflexivity|cbn; lia|]. left. split; [lia|].
        vm_compute. repeat split; auto; discriminate.
      + eapply m_ptr; [reflexivity|]. now apply m_bool.
      + apply mm_nil. }
  eapply mf_keep.
  { eapply fj_own; [apply V; [split; vm_compute; discriminate|discriminate|discriminate]|]. split; [cbn; tauto|auto]. }
  { now apply Pl. }
  { eapply m_iface; [now left| |].
    - constructor. intros t' R. cbn in R. tauto.
    - eapply (m_int _ _ I64 _ (bs "12")); [reflexivity|cbn; lia|]. left. split; [lia|].
      vm_compute. repeat split; auto; discriminate. }
  apply mf_nil.
Qed.

(** []T for a type T with MarshalJSON: the first element's method gives text with white space around it, the second's fails. *)
Definition marsh_types (t : nat) : shape := match t with 0 => SSlice 1 | 1 => SMarsh | _ => SOther end%nat.
Definition marsh_val : val := VSeq [VMarsh (inl (bs " [1, {""a"": -2e3}] ")); VMarsh (inr (bs "boom")); VMarsh (inl (bs "7"))].
Example C07_ex_marsh : finite_type marsh_types 0 /\
  MarshalToString (fun _ => []) (fun _ => []) marsh_types (fun _ => []) 9 0 marsh_val =
    Some (bs "[ [1, {""a"": -2e3}] ,""boom"",7]") /\
  means marsh_types 0 marsh_val (JArr [JArr [JNum (bs "1"); JObj [(bs "a", JNum (bs "-2e3"))]]; JStr (bs "boom"); JNum (bs "7")]).
Proof.
  split; [eapply (builds_finite marsh_types (fun _ => []) 9 []); vm_compute; reflexivity|]. split; [vm_compute; reflexivity|].
  eapply m_slice; [reflexivity|]. eapply ml_cons; [|eapply ml_cons; [|eapply ml_cons; [|apply ml_nil]]].
  - apply m_marsh; [reflexivity|]. exists 9%nat, [32]. split; vm_compute; reflexivity.
  - apply m_marsh_err; [reflexivity|]. apply Forall_forall. intros b Hb. unfold must_escape. vm_compute in Hb. lia.
  - apply m_marsh; [reflexivity|]. exists 9%nat, []. split; vm_compute; reflexivity.
Qed.

(** Outside the property's provisos: what MarshalJSON returns is not checked, and its error is not escaped. *)
Theorem C07_marshaler_refuted : exists types typeName t v1 text1 v2 text2, finite_type types t /\
  (forall ff64 ff32, MarshalToString ff64 ff32 types typeName 9 t (VMarsh (inl v1)) = Some text1) /\ (forall j, ~ parses text1 j) /\
  (forall ff64 ff32, MarshalToString ff64 ff32 types typeName 9 t (VMarsh (inr v2)) = Some text2) /\ (forall j, ~ parses text2 j).
Proof.
  exists (fun _ => SMarsh), (fun _ => []), 0%nat, (bs "oops"), (bs "oops"), (bs "a ""b"" c"), (bs """a ""b"" c""").
  split; [eapply (builds_finite _ (fun _ => []) 9 []); vm_compute; reflexivity|].
  split; [reflexivity|]. split; [intros j (n & r & E & _); destruct n as [|n]; discriminate|].
  split; [reflexivity|]. intros j (n & r & E & W). destruct n as [|n]; [discriminate|].
  cbn in E. injection E as <- <-. discriminate.
Qed.
Print Assumptions C07_marshaler_refuted.

(** Outside the property's provisos: a struct field of a type without encoder, such as
    struct{A complex128}, gives a text that is no JSON at all; so does a map whose keys are structs. *)
Theorem C07_unsupported_field_refuted : exists types typeName t v text, finite_type types t /\
  (forall ff64 ff32, MarshalToString ff64 ff32 types typeName 9 t v = Some text) /\ forall j, ~ parses text j.
Proof.
  exists (fun t => match t with 0 => SStruct [Field (bs "A") [] 1] | _ => SOther end%nat), (fun _ => bs "complex128"),
    0%nat, (VStruct [VOther]), (bs "{""A"":""can not encode complex128 ""A"": .A to json""}").
  split.
  { eapply (builds_finite _ (fun _ => []) 9 []). vm_compute. reflexivity. }
  split; [reflexivity|]. intros j (n & r & E & _). destruct n as [|[|[|n]]]; discriminate.
Qed.
Print Assumptions C07_unsupported_field_refuted.

Theorem C07_struct_key_refuted : exists types typeName t v text, finite_type types t /\
  (forall ff64 ff32, MarshalToString ff64 ff32 types typeName 9 t v = Some text) /\ forall j, ~ parses text j.
Proof.
  exists (fun t => match t with 0 => SMap 1 2 | 1 => SStruct [Field (bs "A") [] 2] | _ => SBool end%nat), (fun _ => []),
    0%nat, (VMap (Some [(VStruct [VBool true], VBool false)])), (bs "{""{""A"":true}"":false}").
  split.
  { eapply (builds_finite _ (fun _ => []) 9 []). vm_compute. reflexivity. }
  split; [reflexivity|]. intros j (n & r & E & _). destruct n as [|[|n]]; discriminate.
Qed.
Print Assumptions C07_struct_key_refuted.

(** * C08 *)
(** "EncoderOf returns": the recursion ends within some number of nested calls. *)
Definition returns (types : nat -> shape) (typeName : nat -> bytes) (t : nat) : Prop :=
  exists fuel e, EncoderOf types typeName fuel t = Some e.

Definition C08_full : Prop := forall types typeName t, returns types typeName t.

(** It returns exactly for types of finite structure. *)
Theorem C08_returns_iff_partial : forall types typeName t, returns types typeName t <-> finite_type types t.
Proof.
  intros types tn t. split.
  - intros (f & e & E). eapply builds_finite; eauto.
  - intros Fin. destruct (finite_builds types tn t Fin) as (f & En). destruct (En []) as (e & E). exists f, e. exact E.
Qed.
Print Assumptions C08_returns_iff_partial.
Example C08_ex : finite_type ex_types 0.
Proof. exact ex_finite. Qed.

(** type node struct { Next *node } *)
Definition node_types (t : nat) : shape := match t with 0 => SStruct [Field (bs "Next") [] 1] | _ => SPtr 0 end%nat.
Theorem C08_self_reference_refuted : forall typeName fuel, EncoderOf node_types typeName fuel 0 = None.
Proof.
  intros tn fuel. destruct (EncoderOf node_types tn fuel 0) as [e|] eqn:E; [exfalso|auto].
  assert (F : finite_type node_types 0) by (eapply builds_finite; exact E).
  assert (N : forall t, finite_type node_types t -> False).
  { intros t. induction 1 as [t _ IH]. unfold refers_to in IH. destruct t as [|t]; cbn [node_types] in IH.
    - apply (IH 1%nat). eexists. exists (bs "Next"). split; [left; reflexivity|]. split; [|reflexivity].
      apply field_json_some. split; reflexivity.
    - apply (IH 0%nat). reflexivity. }
  eauto.
Qed.
Print Assumptions C08_self_reference_refuted.
Theorem C08_full_refuted : ~ C08_full.
Proof.
  intros H. destruct (H node_types (fun _ => []) 0%nat) as (f & e & E).
  now rewrite C08_self_reference_refuted in E.
Qed.
Print Assumptions C08_full_refuted.
