(** Properties C70-C72: what jsonfmt and reflect2 read from memory. *)
From Verif Require Import Base JsonSpec JsonCompModel JsonCompSpec JsonCompProps MemModel MemSpec MemProofs.
From Flocq Require Import IEEE754.Bits.
Open Scope Z_scope.
Open Scope list_scope.

(** * C70: MarshalToString of what is in memory *)

(** [ends r text]: with enough nested calls r returns text (and with more of them it still does) *)
Definition returns_text (r : nat -> outcome bytes) (text : bytes) : Prop := exists N, forall n, (N <= n)%nat -> r n = Done text.

(** An interface that holds the value v, wherever in memory its parts are, is written as v is written by the model without memory (of which C07
    says that it is the JSON text).  METH: no type made of nothing but an unsafe.Pointer has such a method; [keys_plain]: see MemSpec.v *)
Theorem C70_reads_partial : forall kinds typeName size depth bytesType implErr implMarsh errorText marshalText ff64 ff32 m t w v B text,
  types_ok kinds bytesType depth ->
  (forall t, just_unsafe kinds t -> implErr t = false /\ implMarsh t = false) ->
  held kinds size bytesType implErr implMarsh errorText marshalText m t w v -> keys_plain kinds v ->
  MarshalToString ff64 ff32 (shapeOf kinds bytesType implErr implMarsh) typeName B t v = Some text ->
  returns_text (fun n => MarshalToStringM kinds typeName size depth bytesType implErr implMarsh errorText marshalText ff64 ff32 B n m (Some (t, w))) text.
Proof. intros. eapply marshal_ok; eauto. Qed.
Print Assumptions C70_reads_partial.

(** Together with C07: the text is JSON for the value in memory *)
Theorem C70_json_partial : forall kinds typeName size depth bytesType implErr implMarsh errorText marshalText ff64 ff32 m t w v,
  types_ok kinds bytesType depth ->
  (forall t, just_unsafe kinds t -> implErr t = false /\ implMarsh t = false) ->
  held kinds size bytesType implErr implMarsh errorText marshalText m t w v -> keys_plain kinds v ->
  finite_type (shapeOf kinds bytesType implErr implMarsh) t -> (exists j, means (shapeOf kinds bytesType implErr implMarsh) t v j) ->
  exists text,
    (exists B0, forall B, (B0 <= B)%nat ->
      returns_text (fun n => MarshalToStringM kinds typeName size depth bytesType implErr implMarsh errorText marshalText ff64 ff32 B n m (Some (t, w))) text) /\
    (exists j, parses text j) /\
    (forall j, parses text j -> means (shapeOf kinds bytesType implErr implMarsh) t v j).
Proof.
  intros kinds typeName size depth bytesType implErr implMarsh errorText marshalText ff64 ff32 m t w v TOK METH H PL FT M.
  destruct (C07_valid_json ff64 ff32 _ typeName t v FT M) as (text & (F0 & E) & P). exists text. split; [|exact P].
  exists F0. intros B L. eapply C70_reads_partial; eauto.
Qed.
Print Assumptions C70_json_partial.

(** Types:  0: struct { Name string; P *int64; I interface{}; M map[string]interface{} }, 1: string, 2: int64, 3: *int64, 4: interface{},
    5: map[string]interface{}, 6: struct { Q *int64 }, 7: []byte, 8: byte, 9: *(type 0) *)
Definition ex_kinds (t : nat) : kind :=
  match t with
  | 0 => GStruct [MField (bs "Name") [] 1 0; MField (bs "P") [] 3 16; MField (bs "I") [] 4 24; MField (bs "M") [] 5 40]
  | 1 => GString | 2 => GInt I64 | 3 => GPtr 2 | 4 => GEFace | 5 => GMap 1 4
  | 6 => GStruct [MField (bs "Q") [] 3 0] | 7 => GSlice 8 | 8 => GInt U8 | 9 => GPtr 0
  | _ => GComplex
  end%nat.
Definition ex_size (t : nat) : Z := match t with 0%nat => 48 | 1%nat | 4%nat => 16 | 7%nat => 24 | 8%nat => 1 | _ => 8 end.
Definition ex_depth (t : nat) : nat := match t with 0 => 2 | 6 => 1 | _ => 0 end%nat.
Definition mem_of (l : list (nat * Z * cell)) (maps : nat -> option (list (ptr * ptr))) (next : nat) : mem :=
  mkM (fun b o => match find (fun x => Nat.eqb (fst (fst x)) b && (snd (fst x) =? o)) l with Some x => Some (snd x) | None => None end) maps next.
(** { Name: "ab", P: &five, I: struct { Q *int64 }{&five}, M: {"k": int64(5)} } *)
Definition ex_mem : mem :=
  mem_of [((1%nat, 0), CPtr (Some (2%nat, 0))); ((1%nat, 8), CInt I64 2); ((1%nat, 16), CPtr (Some (3%nat, 0)));
          ((1%nat, 24), CType (Some 6%nat)); ((1%nat, 32), CPtr (Some (3%nat, 0))); ((1%nat, 40), CPtr (Some (4%nat, 0)));
          ((2%nat, 0), CInt U8 97); ((2%nat, 1), CInt U8 98); ((3%nat, 0), CInt I64 5);
          ((5%nat, 0), CPtr (Some (6%nat, 0))); ((5%nat, 8), CInt I64 1); ((6%nat, 0), CInt U8 107);
          ((7%nat, 0), CType (Some 2%nat)); ((7%nat, 8), CPtr (Some (3%nat, 0)))]
    (fun b => if Nat.eqb b 4 then Some [((5%nat, 0), (7%nat, 0))] else None) 8.
Definition ex_v : val :=
  VPtr (Some (VStruct [VStr (bs "ab"); VPtr (Some (VInt 5)); VIface (Some (6%nat, VStruct [VPtr (Some (VInt 5))]));
    VMap (Some [(VStr (bs "k"), VIface (Some (2%nat, VInt 5)))])])).
Definition no (t : nat) := false.
Definition no_text {T} (m : mem) (t : nat) (w : option ptr) : outcome T := Panics.

Lemma ex_types_ok : types_ok ex_kinds 7 ex_depth.
Proof.
  split; [|split; [|exists 8%nat; reflexivity]].
  - intros t fs f K I. do 10 (destruct t as [|t]; [try discriminate K; injection K as <-; cbn in I;
      repeat (destruct I as [<-|I]; [cbn; lia|]); contradiction|]). discriminate K.
  - intros t n t' K. do 10 (destruct t as [|t]; [discriminate K|]). discriminate K.
Qed.
Lemma ex_no_just : forall t, just_unsafe ex_kinds t -> False.
Proof.
  intros t J. induction J as [t K|t f K J IH|t t' K J IH].
  - do 10 (destruct t as [|t]; [discriminate K|]). discriminate K.
  - exact IH.
  - exact IH.
Qed.
Example C70_held : held ex_kinds ex_size 7 no no no_text no_text ex_mem 9 (Some (1%nat, 0)) ex_v.
Proof.
  apply hd_direct; [eapply d_ptr; reflexivity|].
  eapply h_ptr; [reflexivity|reflexivity|].
  eapply h_struct; [reflexivity|reflexivity|].
  apply hf_cons.
  { eapply h_str; [reflexivity|reflexivity|reflexivity|]. cbn. repeat (eexists; split; [reflexivity|split; [reflexivity|]]). exact Logic.I. }
  apply hf_cons.
  { eapply h_ptr; [reflexivity|reflexivity|]. eapply h_int; reflexivity. }
  apply hf_cons.
  { eapply h_iface; [now left|eapply ii_eface; reflexivity|].
    apply hd_direct; [eapply d_struct; [reflexivity|]; eapply d_ptr; reflexivity|].
    eapply h_struct; [reflexivity|reflexivity|]. apply hf_cons; [|apply hf_nil].
    eapply h_ptr; [reflexivity|reflexivity|]. eapply h_int; reflexivity. }
  apply hf_cons; [|apply hf_nil].
  eapply h_map; [reflexivity|reflexivity|reflexivity|].
  apply hm_cons; [| |apply hm_nil].
  { eapply h_str; [reflexivity|reflexivity|reflexivity|]. cbn. repeat (eexists; split; [reflexivity|split; [reflexivity|]]). exact Logic.I. }
  eapply h_iface; [now left|eapply ii_eface; reflexivity|].
  apply hd_pointer; [intros D; inversion D; discriminate|]. eapply h_int; reflexivity.
Qed.
Example C70_example : returns_text (fun n => MarshalToStringM ex_kinds (fun _ => []) ex_size ex_depth 7 no no no_text no_text (fun _ => []) (fun _ => []) 9 n
    ex_mem (Some (9%nat, Some (1%nat, 0)))) (bs "{""Name"":""ab"",""P"":5,""I"":{""Q"":5},""M"":{""k"":5}}").
Proof.
  eapply C70_reads_partial; [exact ex_types_ok|intros t J; destruct (ex_no_just t J)|exact C70_held|vm_compute; tauto|vm_compute; reflexivity].
Qed.

(** Without the two conditions it is wrong: MarshalToString of nil, of a nil error in a struct, of maps whose keys are interfaces other than
    interface{} or hold pointers, and of errors made of an unsafe.Pointer *)
Definition C70_full : Prop := forall kinds typeName size depth bytesType implErr implMarsh errorText marshalText ff64 ff32 m i,
  types_ok kinds bytesType depth ->
  match i with Some (t, w) => exists v, held kinds size bytesType implErr implMarsh errorText marshalText m t w v | None => True end ->
  exists B text, returns_text (fun n => MarshalToStringM kinds typeName size depth bytesType implErr implMarsh errorText marshalText ff64 ff32 B n m i) text.
Theorem C70_nil_refuted : forall kinds typeName size depth bytesType implErr implMarsh errorText marshalText ff64 ff32 m B n,
  MarshalToStringM kinds typeName size depth bytesType implErr implMarsh errorText marshalText ff64 ff32 B n m None = Panics.
Proof. reflexivity. Qed.
Print Assumptions C70_nil_refuted.
Theorem C70_full_refuted : ~ C70_full.
Proof.
  intros F. destruct (F ex_kinds (fun _ => []) ex_size ex_depth 7%nat no no no_text no_text (fun _ => []) (fun _ => []) ex_mem None ex_types_ok Logic.I)
    as (B & text & N & E). specialize (E N (le_n N)). rewrite C70_nil_refuted in E. discriminate.
Qed.
Print Assumptions C70_full_refuted.

(** struct { A int64; Err error } with no error *)
Definition err_kinds (t : nat) : kind :=
  match t with 0 => GStruct [MField (bs "A") [] 2 0; MField (bs "Err") [] 1 8] | 1 => GIFace | 2 => GInt I64 | 3 => GSlice 4 | 4 => GInt U8 | _ => GComplex end%nat.
Theorem C70_nil_error_refuted : forall typeName size errorText marshalText ff64 ff32 B n,
  let m := mem_of [((1%nat, 0), CInt I64 1); ((1%nat, 8), CItab None); ((1%nat, 16), CPtr None)] (fun _ => None) 2 in
  MarshalToStringM err_kinds typeName size (fun t => if Nat.eqb t 0 then 1%nat else 0%nat) 3 (Nat.eqb 1) no errorText marshalText ff64 ff32
    (S (S B)) (S (S n)) m (Some (0%nat, Some (1%nat, 0))) = Panics.
Proof. reflexivity. Qed.
Print Assumptions C70_nil_error_refuted.

(** map[fmt.Stringer]bool with one pair: the word of the key that is an itab is taken for a type *)
Theorem C70_stringer_key_refuted : forall typeName size implMarsh errorText marshalText ff64 ff32 B n,
  implMarsh 0%nat = false -> implMarsh 1%nat = false -> implMarsh 2%nat = false ->
  let kinds t := match t with 0 => GMap 1 2 | 1 => GIFace | 2 => GBool | 3 => GSlice 4 | 4 => GInt U8 | _ => GComplex end%nat in
  let m := mem_of [((2%nat, 0), CItab (Some 4%nat)); ((2%nat, 8), CPtr (Some (3%nat, 0))); ((3%nat, 0), CInt U8 7); ((4%nat, 0), CBool true)]
    (fun b => if Nat.eqb b 1 then Some [((2%nat, 0), (4%nat, 0))] else None) 5 in
  MarshalToStringM kinds typeName size (fun _ => 0%nat) 3 no implMarsh errorText marshalText ff64 ff32 (S (S B)) (S (S n)) m (Some (0%nat, Some (1%nat, 0))) = Outside.
Proof.
  intros typeName size implMarsh errorText marshalText ff64 ff32 B n I0 I1 I2. cbn -[bs]. unfold EncoderOfM. cbn -[bs].
  rewrite I0, I1, I2. reflexivity.
Qed.
Print Assumptions C70_stringer_key_refuted.

(** map[interface{}]bool with a *int64 for a key: the number is taken for a pointer *)
Theorem C70_pointer_key_refuted : forall typeName size errorText marshalText ff64 ff32 B n,
  let kinds t := match t with 0 => GMap 1 2 | 1 => GEFace | 2 => GBool | 3 => GSlice 4 | 4 => GInt U8 | 5 => GPtr 6 | 6 => GInt I64 | _ => GComplex end%nat in
  let m := mem_of [((2%nat, 0), CType (Some 5%nat)); ((2%nat, 8), CPtr (Some (3%nat, 0))); ((3%nat, 0), CInt I64 7); ((4%nat, 0), CBool true)]
    (fun b => if Nat.eqb b 1 then Some [((2%nat, 0), (4%nat, 0))] else None) 5 in
  MarshalToStringM kinds typeName size (fun _ => 0%nat) 3 no no errorText marshalText ff64 ff32 (S (S B)) (S (S (S n))) m (Some (0%nat, Some (1%nat, 0))) = Outside.
Proof. reflexivity. Qed.
Print Assumptions C70_pointer_key_refuted.

(** type T struct { p unsafe.Pointer } with a method Error, in a field of a struct { A int64; E T }: Error gets a T whose p is the address of the field *)
Theorem C70_unsafe_error_refuted : forall typeName size marshalText ff64 ff32 B n,
  let kinds t := match t with
    | 0 => GStruct [MField (bs "A") [] 2 0; MField (bs "E") [] 1 8] | 1 => GStruct [MField (bs "p") [] 5 0] | 2 => GInt I64
    | 3 => GSlice 4 | 4 => GInt U8 | 5 => GUnsafePointer | _ => GComplex end%nat in
  let errorText (m : mem) (t : nat) (w : option ptr) := Done (match w with Some (9, _)%nat => bs "what p points to" | _ => bs "something else" end) in
  let m := mem_of [((1%nat, 0), CInt I64 1); ((1%nat, 8), CPtr (Some (9%nat, 0)))] (fun _ => None) 10 in
  held kinds size 3 (Nat.eqb 1) no errorText marshalText m 0 (Some (1%nat, 0)) (VStruct [VInt 1; VErr (bs "what p points to")]) /\
  MarshalToStringM kinds typeName size (fun t => match t with 0 => 2 | 1 => 1 | _ => 0 end%nat) 3 (Nat.eqb 1) no errorText marshalText ff64 ff32
    (S (S B)) (S (S n)) m (Some (0%nat, Some (1%nat, 0))) = Done (bs "{""A"":1,""E"":""something else""}").
Proof.
  intros. split; [|reflexivity]. apply hd_pointer; [intros D; inversion D; discriminate|].
  eapply h_struct; [reflexivity|reflexivity|]. apply hf_cons; [eapply h_int; reflexivity|]. apply hf_cons; [|apply hf_nil].
  eapply (h_err _ _ _ _ _ _ _ _ _ _ 1%nat (Some (9%nat, 0))); [reflexivity| |reflexivity].
  eapply ii_direct; [|reflexivity]. eapply d_struct; [reflexivity|]. now apply d_unsafe.
Qed.
Print Assumptions C70_unsafe_error_refuted.

(** * C71: cyclic values *)

(** s := []interface{}{nil}; s[0] = s *)
Definition cyc_kinds (t : nat) : kind := match t with 0 => GSlice 1 | 1 => GEFace | 2 => GSlice 3 | 3 => GInt U8 | _ => GComplex end%nat.
Definition cyc_mem : mem :=
  mem_of [((1%nat, 0), CPtr (Some (2%nat, 0))); ((1%nat, 8), CInt I64 1); ((1%nat, 16), CInt I64 1);
          ((2%nat, 0), CType (Some 0%nat)); ((2%nat, 8), CPtr (Some (1%nat, 0)))] (fun _ => None) 3.
Definition C71_full : Prop := forall kinds typeName size depth bytesType implErr implMarsh errorText marshalText ff64 ff32 m t w,
  types_ok kinds bytesType depth -> (forall t, finite_type (shapeOf kinds bytesType implErr implMarsh) t) ->
  exists B n, MarshalToStringM kinds typeName size depth bytesType implErr implMarsh errorText marshalText ff64 ff32 B n m (Some (t, w)) <> NoFuel.
Theorem C71_cyclic_refuted : forall typeName size depth implErr implMarsh errorText marshalText ff64 ff32 B n,
  implErr 0%nat = false -> implMarsh 0%nat = false -> implErr 1%nat = false -> implMarsh 1%nat = false ->
  MarshalToStringM cyc_kinds typeName size depth 2 implErr implMarsh errorText marshalText ff64 ff32 B n cyc_mem (Some (0%nat, Some (1%nat, 0))) = NoFuel.
Proof.
  intros tn size depth iE iM eT mT ff64 ff32 B n E0 M0 E1 M1.
  unfold MarshalToStringM, EncoderOfM. destruct B as [|[|B]]; [reflexivity|cbn; now rewrite E0, M0|].
  assert (EO : encoderOfM cyc_kinds tn size 2 iE iM (S (S B)) [] 0 = Some (MSlice (size 1%nat) (MDynamic 1))).
  { cbn. now rewrite E0, M0, E1, M1. }
  rewrite EO. cbn [obind]. change (LikePtr cyc_kinds depth 0) with false. cbv iota.
  assert (G : forall n sp, encodeAt cyc_kinds tn size depth 2 iE iM eT mT ff64 ff32 (S (S B)) n cyc_mem (MSlice (size 1%nat) (MDynamic 1)) (Some (1%nat, 0)) sp = NoFuel).
  { fix IH 1. intros [|[|k]] sp; [reflexivity|reflexivity|].
    assert (ST : encodeAt cyc_kinds tn size depth 2 iE iM eT mT ff64 ff32 (S (S B)) (S (S k)) cyc_mem (MSlice (size 1%nat) (MDynamic 1)) (Some (1%nat, 0)) sp
      = bind (bind (match EncoderOfM cyc_kinds tn size depth 2 iE iM (S (S B)) 0 with
            | Some e => encodeAt cyc_kinds tn size depth 2 iE iM eT mT ff64 ff32 (S (S B)) k cyc_mem e (Some (1%nat, 0)) (sp ++ [91]) | None => NoFuel end)
            (fun sp => Done sp)) (fun sp => Done (sp ++ [93]))) by reflexivity.
    rewrite ST. unfold EncoderOfM. rewrite EO. cbn [obind]. change (LikePtr cyc_kinds depth 0) with false. cbv iota.
    rewrite IH. reflexivity. }
  apply G.
Qed.
Print Assumptions C71_cyclic_refuted.
Theorem C71_full_refuted : ~ C71_full.
Proof.
  intros F.
  assert (TOK : types_ok cyc_kinds 2 (fun _ => 0%nat)).
  { split; [|split; [|exists 3%nat; reflexivity]].
    - intros t fs f K. do 4 (destruct t as [|t]; [discriminate K|]). discriminate K.
    - intros t k t' K. do 4 (destruct t as [|t]; [discriminate K|]). discriminate K. }
  assert (FT : forall t, finite_type (shapeOf cyc_kinds 2 no no) t).
  { intros [|[|[|[|t]]]]; eapply (JsonCompProofs.builds_finite _ (fun _ => []) 9 []); reflexivity. }
  destruct (F cyc_kinds (fun _ => []) (fun _ => 16) (fun _ => 0%nat) 2%nat no no no_text no_text (fun _ => []) (fun _ => []) cyc_mem 0%nat (Some (1%nat, 0)) TOK FT) as (B & n & H).
  apply H. now apply C71_cyclic_refuted.
Qed.
Print Assumptions C71_full_refuted.

(** With the value given as a (finite) tree it ends: *)
Theorem C71_partial : forall kinds typeName size depth bytesType implErr implMarsh errorText marshalText ff64 ff32 m t w v,
  types_ok kinds bytesType depth ->
  (forall t, just_unsafe kinds t -> implErr t = false /\ implMarsh t = false) ->
  held kinds size bytesType implErr implMarsh errorText marshalText m t w v -> keys_plain kinds v ->
  finite_type (shapeOf kinds bytesType implErr implMarsh) t -> (exists j, means (shapeOf kinds bytesType implErr implMarsh) t v j) ->
  exists B n, MarshalToStringM kinds typeName size depth bytesType implErr implMarsh errorText marshalText ff64 ff32 B n m (Some (t, w)) <> NoFuel.
Proof.
  intros kinds typeName size depth bytesType implErr implMarsh errorText marshalText ff64 ff32 m t w v TOK METH H PL FT M.
  destruct (C70_json_partial kinds typeName size depth bytesType implErr implMarsh errorText marshalText ff64 ff32 m t w v TOK METH H PL FT M)
    as (text & (B & E) & _). destruct (E B (le_n B)) as (N & E'). exists B, N. rewrite (E' N (le_n N)). discriminate.
Qed.
Print Assumptions C71_partial.
Example C71_example : exists B n, MarshalToStringM ex_kinds (fun _ => []) ex_size ex_depth 7 no no no_text no_text (fun _ => []) (fun _ => []) B n
    ex_mem (Some (9%nat, Some (1%nat, 0))) <> NoFuel.
Proof. destruct C70_example as (N & E). exists 9%nat, N. rewrite (E N (le_n N)). discriminate. Qed.

(** * C72: Indirect *)

Lemma just_like : forall kinds depth t, just_unsafe kinds t -> LikePtr kinds depth t = false.
Proof.
  intros kinds depth t J. unfold LikePtr. destruct J as [t K|t f K J|t t' K J]; rewrite K; auto; apply just_not_like; eauto using j_struct, j_array.
Qed.
Lemma just_dec : forall kinds bytesType depth m t p i, types_ok kinds bytesType depth -> in_interface kinds m t p i -> just_unsafe kinds t \/ ~ just_unsafe kinds t.
Proof.
  intros kinds bytesType depth m t p i TOK II.
  destruct II as [t p K|t p ? ? K|t p K|t p ? ? K|t p w D|t p D NI].
  5: { destruct (LikePtr_complete _ _ _ TOK t D) as [L|J]; [|now left]. right. intros J. rewrite (just_like kinds depth t J) in L. discriminate. }
  all: right; intros J; try (inversion J; congruence). apply D. now apply just_direct.
Qed.
Lemma just_indirect : forall kinds depth m t p, just_unsafe kinds t -> UnsafeIndirect kinds depth m t (Some p) = Done (Some (t, Some p)).
Proof. intros kinds depth m t p J. unfold UnsafeIndirect. rewrite (just_like kinds depth t J). destruct J as [t K|t f K J|t t' K J]; now rewrite K. Qed.

(** UnsafeIndirect(p) is the interface{} that the variable at p gives, exactly for the types that are not made of nothing but an unsafe.Pointer
    (or when such a variable points to itself) *)
Theorem C72_iff_partial : forall kinds bytesType depth m t p i, types_ok kinds bytesType depth -> in_interface kinds m t p i ->
  (UnsafeIndirect kinds depth m t (Some p) = Done i <-> ~ just_unsafe kinds t \/ i = Some (t, Some p)).
Proof.
  intros kinds bytesType depth m t p i TOK II.
  destruct (just_dec _ _ _ _ _ _ _ TOK II) as [J|NJ].
  - rewrite just_indirect by exact J. split; [intros E; injection E as <-; now right|]. intros [N| ->]; [contradiction|reflexivity].
  - split; [now left|]. intros _. eapply indirect_ok; eauto.
Qed.
Print Assumptions C72_iff_partial.
(** The field I of the struct of C70_example, and the struct { Q *int64 } in a variable *)
Example C72_example : UnsafeIndirect ex_kinds ex_depth ex_mem 4 (Some (1%nat, 24)) = Done (Some (6%nat, Some (3%nat, 0))) /\
  UnsafeIndirect ex_kinds ex_depth ex_mem 6 (Some (1%nat, 16)) = Done (Some (6%nat, Some (3%nat, 0))) /\
  in_interface ex_kinds ex_mem 6 (1%nat, 16) (Some (6%nat, Some (3%nat, 0))).
Proof.
  split; [reflexivity|]. split; [reflexivity|]. eapply ii_direct; [|reflexivity]. eapply d_struct; [reflexivity|]. eapply d_ptr; reflexivity.
Qed.

Definition C72_full : Prop := forall kinds bytesType depth m t p i, types_ok kinds bytesType depth -> in_interface kinds m t p i ->
  UnsafeIndirect kinds depth m t (Some p) = Done i.
(** reflect2.TypeOf(unsafe.Pointer(nil)).Indirect(&p) is the address of p instead of p *)
Theorem C72_unsafe_pointer_refuted : forall depth,
  let kinds t := match t with 0 => GUnsafePointer | 1 => GSlice 2 | _ => GInt U8 end%nat in
  let m := mem_of [((1%nat, 0), CPtr (Some (2%nat, 0)))] (fun _ => None) 3 in
  in_interface kinds m 0 (1%nat, 0) (Some (0%nat, Some (2%nat, 0))) /\
  UnsafeIndirect kinds depth m 0 (Some (1%nat, 0)) = Done (Some (0%nat, Some (1%nat, 0))).
Proof. intros depth kinds m. split; [eapply ii_direct; [now apply d_unsafe|reflexivity]|reflexivity]. Qed.
Print Assumptions C72_unsafe_pointer_refuted.
Theorem C72_full_refuted : ~ C72_full.
Proof.
  intros F. destruct (C72_unsafe_pointer_refuted (fun _ => 0%nat)) as [II E].
  assert (TOK : types_ok (fun t => match t with 0 => GUnsafePointer | 1 => GSlice 2 | _ => GInt U8 end%nat) 1 (fun _ => 0%nat)).
  { split; [|split; [|exists 2%nat; reflexivity]]; intros [|[|t]]; discriminate. }
  pose proof (F _ _ _ _ _ _ _ TOK II) as E'. discriminate (eq_trans (eq_sym E') E).
Qed.
Print Assumptions C72_full_refuted.

(** ** The parameter of encoder.go:212 *)
(** A new variable holds what it was given, in one word, and every other variable stays as it was. *)
Theorem C70_variable : forall m c, cells (alloc m c) (fst (slot m)) (snd (slot m)) = Some c /\
  (forall o, o <> snd (slot m) -> cells (alloc m c) (fst (slot m)) o = None) /\
  (forall b o, b <> fst (slot m) -> cells (alloc m c) b o = cells m b o) /\ (forall b, maps (alloc m c) b = maps m b) /\
  fst (slot (alloc m c)) <> fst (slot m).
Proof.
  intros m c. unfold alloc, slot. cbn [cells maps fst snd next]. rewrite Nat.eqb_refl. change (0 =? 0) with true. cbv iota.
  repeat split; auto.
  - intros o N. destruct (Z.eqb_spec o 0); [congruence|reflexivity].
  - intros b o N. destruct (Nat.eqb_spec b (next m)); [congruence|reflexivity].
Qed.
Print Assumptions C70_variable.
Example C70_variable_example : cells (alloc (mkM (fun _ _ => None) (fun _ => None) 3) (CBool true)) 3 0 = Some (CBool true).
Proof. reflexivity. Qed.
