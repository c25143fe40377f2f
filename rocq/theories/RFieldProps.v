(** C134: the fields of struct types by name, in reflect2's unsafe and safe implementation. *)
From Verif Require Import Base RFieldModel RFieldSpec RFieldProofs.
Open Scope list_scope.
Open Scope Z_scope.

(** What the methods of a field say *)
Definition says {T} (g : field) (name pkg tag : bytes) (offset : Z) (index : list nat) (anonymous : bool) (type_ : T) (type2 : nat -> T) : Prop :=
  Name g = name /\ PkgPath g = pkg /\ Tag g = tag /\ Offset g = offset /\ Index g = index /\ Anonymous g = anonymous /\ FieldType T type2 g = Gives type_.

(** The types of the examples:
    0: struct { *Base; Left; Right; id int }, 1: *Base, 2: Base struct { *Base; Name string "json" }, 3: Left struct { pad int; X int }, 4: Right struct { X int }, 5: int, string *)
Definition x_field (name : string) (t : nat) (emb : bool) (o : Z) : rfield := RF (bs name) [] [] t emb o.
Definition x_types : list rtype :=
  [RStruct [x_field "Base" 1 true 0; x_field "Left" 3 true 8; x_field "Right" 4 true 24; RF (bs "id") (bs "main") [] 5 false 32];
   RPtr 2;
   RStruct [x_field "Base" 1 true 0; RF (bs "Name") [] (bs "json") 5 false 8];
   RStruct [x_field "pad" 5 false 0; x_field "X" 5 false 8];
   RStruct [x_field "X" 5 false 0];
   ROther].
Lemma x_proper : proper_names x_types.
Proof.
  intros t fs E. unfold is_struct in E.
  destruct t as [|[|[|[|[|[|t]]]]]]; cbn in E; try discriminate; try (destruct t; discriminate); injection E as <-; (split;
    [ intros f I; cbn in I; repeat (destruct I as [<-|I]; [discriminate|]); contradiction
    | intros i j f g A B N _; destruct i as [|[|[|[|i]]]]; cbn in A; try discriminate; try (destruct i; discriminate); injection A as <-;
      destruct j as [|[|[|[|j]]]]; cbn in B; try discriminate; try (destruct j; discriminate); injection B as <-; try reflexivity; vm_compute in N; discriminate ]).
Qed.

(** FieldByName of a name: the field that Go's rule for selectors chooses, with its path as the Index *)
Theorem C134_selected_partial : forall types ptrTo T (type2 : nat -> T) t fs name path f, proper_names types -> is_struct types t fs -> name <> bs "_" ->
  selects types t (fun s => sameName s name) path f ->
  (exists g, UFieldByName types ptrTo t name = Some (Gives (Some g)) /\ says g name (r_pkg f) (r_tag f) (r_offset f) path (r_embedded f) (type2 (r_type f)) type2) /\
  (exists g, SFieldByName types t name = Some (Gives (Some g)) /\
     Name g = name /\ PkgPath g = r_pkg f /\ Tag g = r_tag f /\ Offset g = r_offset f /\ Index g = path /\ Anonymous g = r_embedded f).
Proof.
  intros types ptrTo T type2 t fs name path f PR ST NB SEL. destruct (name_correct types PR t name NB fs ST) as (r & E & H).
  destruct r as [g|]; [|exfalso; exact (H path f SEL)]. destruct H as (path' & f' & -> & SEL').
  destruct (selects_det types t _ _ _ _ _ SEL SEL') as [<- <-].
  assert (N : r_name f = name) by (destruct SEL as ((p & u & fs' & i & _ & _ & _ & _ & M) & _); now apply same_iff in M).
  unfold UFieldByName, SFieldByName. rewrite E. split; eexists; (split; [reflexivity|]); repeat split; exact N.
Qed.
Print Assumptions C134_selected_partial.
(** Name is promoted through the pointer *Base; id is a field of its own *)
Example C134_selected_example : UFieldByName x_types S 0 (bs "Name") = Some (Gives (Some (UnsafeField 0 (SF (bs "Name") [] (bs "json") 5 8 [0; 1]%nat false) 5 6))) /\
  SFieldByName x_types 0 (bs "id") = Some (Gives (Some (SafeField (SF (bs "id") (bs "main") [] 5 32 [3]%nat false)))) /\
  selects x_types 0 (fun s => sameName s (bs "id")) [3]%nat (RF (bs "id") (bs "main") [] 5 false 32).
Proof.
  split; [reflexivity|]. split; [reflexivity|]. split.
  - exists [], 0%nat, (fieldsOf x_types 0), 3%nat. split; [reflexivity|]. split; [constructor|]. split; [reflexivity|]. split; reflexivity.
  - intros path' f' (p & t & fs' & i & -> & L & ST & N & M). destruct p as [|x p]; [left|right; rewrite app_length; cbn; lia].
    apply leads_nil in L. subst t. injection ST as <-. destruct i as [|[|[|[|i]]]]; cbn in N; try reflexivity; try (destruct i; discriminate); injection N as <-; discriminate.
Qed.

(** If that rule chooses none (no such field, or two at the shallowest depth), the unsafe implementation gives nil, the safe one panics *)
Theorem C134_missing : forall types ptrTo t fs name, proper_names types -> is_struct types t fs -> name <> bs "_" ->
  (forall path f, ~ selects types t (fun s => sameName s name) path f) ->
  UFieldByName types ptrTo t name = Some (Gives None) /\ SFieldByName types t name = Some (Panics (bs "field " ++ name ++ bs " not found")).
Proof.
  intros types ptrTo t fs name PR ST NB NS. destruct (name_correct types PR t name NB fs ST) as (r & E & H).
  destruct r as [g|]; [destruct H as (path & f & _ & SEL); exfalso; exact (NS path f SEL)|]. unfold UFieldByName, SFieldByName. rewrite E. split; reflexivity.
Qed.
Print Assumptions C134_missing.
(** Both Left and Right have an X *)
Example C134_missing_example : UFieldByName x_types S 0 (bs "X") = Some (Gives None) /\ SFieldByName x_types 0 (bs "X") = Some (Panics (bs "field X not found")) /\
  UFieldByName x_types S 3 (bs "X") = Some (Gives (Some (UnsafeField 3 (SF (bs "X") [] [] 5 8 [1]%nat false) 5 6))).
Proof. repeat split. Qed.

(** FieldByNameFunc: the same rule for any set of names *)
Theorem C134_func : forall types ptrTo typeString T (type2 : nat -> T) t fs asked, is_struct types t fs ->
  (forall path f, selects types t asked path f ->
     exists g, UFieldByNameFunc types ptrTo typeString t asked = Some (Gives g) /\ says g (r_name f) (r_pkg f) (r_tag f) (r_offset f) path (r_embedded f) (type2 (r_type f)) type2) /\
  ((forall path f, ~ selects types t asked path f) ->
     UFieldByNameFunc types ptrTo typeString t asked = Some (Panics (bs "field match condition not found in " ++ typeString t))).
Proof.
  intros types ptrTo typeString T type2 t fs asked ST. destruct (func_correct types asked t (ex_intro _ fs ST)) as (r & E & H). unfold UFieldByNameFunc. rewrite E. split.
  - intros path f SEL. destruct r as [g|]; [|exfalso; exact (H path f SEL)]. destruct H as (path' & f' & -> & SEL').
    destruct (selects_det types t _ _ _ _ _ SEL SEL') as [<- <-]. eexists. split; [reflexivity|]. repeat split.
  - intros NS. destruct r as [g|]; [destruct H as (path & f & _ & SEL); exfalso; exact (NS path f SEL)|]. reflexivity.
Qed.
Print Assumptions C134_func.
Example C134_func_example :
  UFieldByNameFunc x_types S (fun _ => bs "T") 0 (fun s => sameName s (bs "Name") || sameName s (bs "pad")) = Some (Panics (bs "field match condition not found in T")) /\
  UFieldByNameFunc x_types S (fun _ => bs "T") 0 (fun s => Nat.eqb (List.length s) 2) = Some (Gives (UnsafeField 0 (SF (bs "id") (bs "main") [] 5 32 [3]%nat false) 5 6)).
Proof. split; reflexivity. Qed.

(** Field: the fields of the struct itself, by position *)
Theorem C134_field : forall types ptrTo T (type2 : nat -> T) t fs i, is_struct types t fs ->
  match nth_error fs i with
  | Some f => exists g, UField types ptrTo t i = Gives g /\ says g (r_name f) (r_pkg f) (r_tag f) (r_offset f) [i] (r_embedded f) (type2 (r_type f)) type2
  | None => exists msg, UField types ptrTo t i = Panics msg
  end.
Proof.
  intros types ptrTo T type2 t fs i ST. unfold UField. rewrite (fieldsOf_struct types t fs ST). destruct (nth_error fs i) as [f|]; eexists; [split; [reflexivity|repeat split]|reflexivity].
Qed.
Print Assumptions C134_field.
Example C134_field_example : UField x_types S 0 1 = Gives (UnsafeField 0 (SF (bs "Left") [] [] 3 8 [1]%nat true) 3 4) /\ is_struct x_types 0 (match nth 0 x_types ROther with RStruct fs => fs | _ => [] end).
Proof. split; reflexivity. Qed.

(** UnsafeGet and UnsafeSet use the offset within the innermost struct: the address of x.f exactly if the structs around it start where x does *)
Theorem C134_address : forall types ptrTo t fs name path f o obj, proper_names types -> is_struct types t fs -> name <> bs "_" ->
  selects types t (fun s => sameName s name) path f -> total_offset types t path o ->
  exists g, UFieldByName types ptrTo t name = Some (Gives (Some g)) /\
    (UnsafeGet g obj = Gives (obj + o) <-> o = r_offset f) /\ (forall value, UnsafeSet g obj value = Gives (r_type f, obj + r_offset f, value)).
Proof.
  intros types ptrTo t fs name path f o obj PR ST NB SEL TO. destruct (name_correct types PR t name NB fs ST) as (r & E & H).
  destruct r as [g|]; [|exfalso; exact (H path f SEL)]. destruct H as (path' & f' & -> & SEL').
  destruct (selects_det types t _ _ _ _ _ SEL SEL') as [<- <-]. unfold UFieldByName. rewrite E. eexists. split; [reflexivity|]. cbn. split; [|reflexivity].
  split; [intros X; injection X; lia|intros ->; reflexivity].
Qed.
Print Assumptions C134_address.
Example C134_address_example : total_offset x_types 0 [3]%nat 32 /\ total_offset x_types 0 [2; 0]%nat 24 /\
  (exists g, UFieldByName x_types S 0 (bs "id") = Some (Gives (Some g)) /\ UnsafeGet g 1000 = Gives 1032 /\ UnsafeSet g 1000 2000 = Gives (5%nat, 1032, 2000)).
Proof.
  split; [exact (o_last x_types 0 (fieldsOf x_types 0) 3 (RF (bs "id") (bs "main") [] 5 false 32) eq_refl eq_refl)|]. split; [|eexists; repeat split].
  apply (o_in x_types 0 (fieldsOf x_types 0) 2 (x_field "Right" 4 true 24) [0]%nat 0 eq_refl eq_refl). exact (o_last x_types 4 (fieldsOf x_types 4) 0 (x_field "X" 5 false 0) eq_refl eq_refl).
Qed.
Definition C134_full : Prop := forall types ptrTo t fs name path f o obj, proper_names types -> is_struct types t fs -> name <> bs "_" ->
  selects types t (fun s => sameName s name) path f -> total_offset types t path o ->
  exists g, UFieldByName types ptrTo t name = Some (Gives (Some g)) /\ UnsafeGet g obj = Gives (obj + o).
(** pad of Left is at 8 in the outer struct, but FieldByName says 0, which is where the pointer to Base is *)
Theorem C134_promoted_refuted : exists g, UFieldByName x_types S 0 (bs "pad") = Some (Gives (Some g)) /\ Offset g = 0 /\ total_offset x_types 0 [1; 0]%nat 8 /\ UnsafeGet g 1000 = Gives 1000.
Proof.
  eexists. split; [reflexivity|]. split; [reflexivity|]. split; [|reflexivity].
  apply (o_in x_types 0 (fieldsOf x_types 0) 1 (x_field "Left" 3 true 8) [0]%nat 0 eq_refl eq_refl). exact (o_last x_types 3 (fieldsOf x_types 3) 0 (x_field "pad" 5 false 0) eq_refl eq_refl).
Qed.
Print Assumptions C134_promoted_refuted.
Theorem C134_full_refuted : ~ C134_full.
Proof.
  intros F. destruct C134_promoted_refuted as (g & E & _ & TO & G). destruct (func_correct x_types (fun s => sameName s (bs "pad")) 0 (ex_intro _ (fieldsOf x_types 0) eq_refl)) as (r & E' & H).
  vm_compute in E'. injection E' as <-. destruct H as (path & f & D & SEL). injection D as D1 D2 D3 D4 D5 D6 D7.
  rewrite <- D6 in SEL. destruct (F x_types S 0%nat (fieldsOf x_types 0) (bs "pad") _ f 8 1000 x_proper eq_refl ltac:(discriminate) SEL TO) as (g' & E2 & G').
  rewrite E in E2. injection E2 as <-. rewrite G in G'. discriminate.
Qed.
Print Assumptions C134_full_refuted.

(** Get and Set of the unsafe implementation want a pointer to the struct and a pointer to a variable of the type of the field; they say so if they get another *)
Theorem C134_checked : forall types ptrTo typeString t fs name path f, proper_names types -> is_struct types t fs -> name <> bs "_" ->
  selects types t (fun s => sameName s name) path f ->
  exists sf rtype ptrRType, UFieldByName types ptrTo t name = Some (Gives (Some (UnsafeField t sf rtype ptrRType))) /\
    (forall p, UGet ptrTo typeString t sf ptrRType (Some (ptrTo t, p)) = Gives (ptrTo (r_type f), p + r_offset f)) /\
    (forall p q, USet ptrTo typeString t sf rtype ptrRType (Some (ptrTo t, p)) (Some (ptrTo (r_type f), q)) = Gives (r_type f, p + r_offset f, q)) /\
    (forall u p v, u <> ptrTo t ->
       UGet ptrTo typeString t sf ptrRType (Some (u, p)) = Panics (bs "StructField.GetIndex argument 1: expect " ++ typeString (ptrTo t) ++ bs ", actual " ++ typeString u) /\
       USet ptrTo typeString t sf rtype ptrRType (Some (u, p)) v = Panics (bs "StructField.SetIndex argument 1: expect " ++ typeString (ptrTo t) ++ bs ", actual " ++ typeString u)) /\
    (forall u p q, u <> ptrTo (r_type f) ->
       USet ptrTo typeString t sf rtype ptrRType (Some (ptrTo t, p)) (Some (u, q)) =
         Panics (bs "StructField.SetIndex argument 2: expect " ++ typeString (ptrTo (r_type f)) ++ bs ", actual " ++ typeString u)) /\
    (forall p v, let nilDeref := bs "runtime error: invalid memory address or nil pointer dereference" in
       UGet ptrTo typeString t sf ptrRType None = Panics nilDeref /\ USet ptrTo typeString t sf rtype ptrRType None v = Panics nilDeref /\
       USet ptrTo typeString t sf rtype ptrRType (Some (ptrTo t, p)) None = Panics nilDeref).
Proof.
  intros types ptrTo typeString t fs name path f PR ST NB SEL. destruct (name_correct types PR t name NB fs ST) as (r & E & H).
  destruct r as [g|]; [|exfalso; exact (H path f SEL)]. destruct H as (path' & f' & -> & SEL').
  destruct (selects_det types t _ _ _ _ _ SEL SEL') as [<- <-]. unfold UFieldByName. rewrite E. do 3 eexists. split; [reflexivity|]. unfold UGet, USet, assertType. cbn [option_map fst f_type describe f_offset].
  split; [intros p; now rewrite Nat.eqb_refl|]. split; [intros p q; now rewrite !Nat.eqb_refl|].
  split; [intros u p v NE; rewrite (proj2 (Nat.eqb_neq _ _)) by congruence; split; reflexivity|].
  split; [intros u p q NE; rewrite Nat.eqb_refl, (proj2 (Nat.eqb_neq _ _)) by congruence; reflexivity|].
  intros p v. cbv zeta. split; [reflexivity|]. split; [reflexivity|]. now rewrite Nat.eqb_refl.
Qed.
Print Assumptions C134_checked.
Example C134_checked_example : exists sf, UFieldByName x_types (fun t => (t + 10)%nat) 0 (bs "id") = Some (Gives (Some (UnsafeField 0 sf 5 15))) /\
  USet (fun t => (t + 10)%nat) (fun t => if Nat.eqb t 15 then bs "*int" else bs "*T") 0 sf 5 15 (Some (10%nat, 1000)) (Some (15%nat, 2000)) = Gives (5%nat, 1032, 2000) /\
  USet (fun t => (t + 10)%nat) (fun t => if Nat.eqb t 15 then bs "*int" else bs "*T") 0 sf 5 15 (Some (10%nat, 1000)) (Some (10%nat, 2000)) =
    Panics (bs "StructField.SetIndex argument 2: expect *int, actual *T").
Proof. eexists. split; [reflexivity|]. split; reflexivity. Qed.

(** A field of the safe implementation has no Type, and no unsafe access *)
Theorem C134_safe_type_refuted : forall types t name g T (type2 : nat -> T) obj value, SFieldByName types t name = Some (Gives (Some g)) ->
  FieldType T type2 g = Panics (bs "not implemented") /\ UnsafeGet g obj = Panics (bs "does not support unsafe operation") /\
  UnsafeSet g obj value = Panics (bs "unsafe operation is not supported").
Proof.
  intros types t name g T type2 obj value E. unfold SFieldByName in E. destruct (fieldByName types t name) as [[f|]|]; try discriminate. injection E as <-. repeat split.
Qed.
Print Assumptions C134_safe_type_refuted.
Example C134_safe_type_example : SFieldByName x_types 0 (bs "Name") = Some (Gives (Some (SafeField (SF (bs "Name") [] (bs "json") 5 8 [0; 1]%nat false)))).
Proof. reflexivity. Qed.
