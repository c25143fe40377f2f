(** C140: jsonfmt with a Config of one's own. *)
From Verif Require Import Base JsonCompModel JsonCompSpec JsonExtModel JsonExtSpec JsonExtProofs.
Open Scope list_scope.

(** Names of fields are not empty, as in Go *)
Definition names_ok (types : nat -> shape) : Prop := forall t fs f, types t = SStruct fs -> In f fs -> f_name f <> [].

(** The encoder of a type is that of the first extension that gives one, whatever the type is; an encoder of an extension is used only so. *)
Theorem C140_first : forall types typeName unexported exts f p t e, encoderOfX types typeName unexported exts f p t = Some e -> forall id, e = XExt id <-> claims exts p t id.
Proof.
  intros types typeName unexported exts f p t e E id. rewrite <- ask_some. destruct f as [|f]; [discriminate E|]. cbn [encoderOfX] in E. destruct (ask exts p t) as [i|].
  - injection E as <-. split; intro X; injection X as ->; reflexivity.
  - split; [|discriminate]. intros ->. destruct (types t); try discriminate E.
    + destruct (encoderOfX _ _ _ _ f _ t0); discriminate E.
    + destruct (encoderOfX _ _ _ _ f _ t0); discriminate E.
    + destruct (encoderOfX _ _ _ _ f _ t0); discriminate E.
    + destruct (structFieldsX _ _ _ _ _ fs); discriminate E.
    + destruct (encoderOfX _ _ _ _ f _ k); [|discriminate E]. cbn [obind] in E. destruct (encoderOfX _ _ _ _ f _ t0); discriminate E.
Qed.
(** With extensions that never give an encoder everything is as with ConfigDefault. *)
Theorem C140_silent : forall types typeName exts, (forall p t, silent exts p t) -> forall f t, encoderOfX types typeName false exts f [] t = option_map embed (EncoderOf types typeName f t).
Proof. intros types typeName exts H f t. apply default_embed. exact H. Qed.
(** And so is every encoder without a part that an extension has given. *)
Theorem C140_untouched : forall types typeName exts f t e, encoderOfX types typeName false exts f [] t = Some e -> untouched e = true -> exists e0, EncoderOf types typeName f t = Some e0 /\ e = embed e0.
Proof. intros types typeName exts f t e. apply untouched_embed. Qed.
(** The fields of a struct are those that have a name, the ones that are not exported only if IncludesUnexported; the extensions are asked about their types too. *)
Theorem C140_fields : forall types typeName unexported exts f p t e fs, names_ok types -> encoderOfX types typeName unexported exts f p t = Some e -> types t = SStruct fs -> silent exts p t ->
  exists l, e = XStruct l /\ fields_are types unexported (fun p t e => exists f, encoderOfX types typeName unexported exts f p t = Some e) 0 true fs l.
Proof.
  intros types typeName unexported exts f p t e fs N E T Si. destruct f as [|f]; [discriminate E|]. cbn [encoderOfX] in E. rewrite (proj2 (ask_none _ _ _) Si), T in E.
  destruct (structFieldsX _ _ _ _ _ fs) as [l|] eqn:L; [|discriminate E]. injection E as <-. exists l. split; [reflexivity|]. assert (F := fields_made types typeName unexported exts f fs 0 true l (fun x => N _ _ x T) L).
  clear L T. induction F; [apply fa_nil|apply fa_skip; assumption|eapply fa_keep; eauto].
Qed.
(** An encoder can be made if going from types to their parts always comes to an extension or to an end; and only then, if the extensions answer without regard to the prefix. *)
Theorem C140_ends : forall types typeName unexported exts t, names_ok types -> settled types unexported exts t -> exists f, forall p, encoderOfX types typeName unexported exts f p t <> None.
Proof. intros types typeName unexported exts t N H. destruct (settled_ends types typeName unexported exts N t H) as [f F]. exists f. intros p. destruct (F p) as [e ->]. discriminate. Qed.
Theorem C140_ends_only : forall types typeName unexported exts f p t, names_ok types -> (forall p p' t, silent exts p t -> silent exts p' t) -> encoderOfX types typeName unexported exts f p t <> None -> settled types unexported exts t.
Proof. intros types typeName unexported exts f p t N Pi H. destruct (encoderOfX types typeName unexported exts f p t) as [e|] eqn:E; [|contradiction]. exact (ends_settled types typeName unexported exts N Pi _ _ _ _ E). Qed.

(** * Examples *)

(** 0 is struct { Next *T; v string; E error }, a list; 1 its pointer, 2 string, 3 error, 4 map[interface{}]string, 5 interface{}, 6 struct { A, B struct { X string } }, 7 that of A and B *)
Definition xTypes (t : nat) : shape :=
  match t with
  | 0%nat => SStruct [Field (bs "Next") [] 1; Field (bs "v") (bs "value,omitempty") 2; Field (bs "E") [] 3]
  | 1%nat => SPtr 0
  | 2%nat => SString
  | 3%nat => SErr
  | 4%nat => SMap 5 2
  | 5%nat => SIface
  | 6%nat => SStruct [Field (bs "A") [] 7; Field (bs "B") (bs "-") 7; Field (bs "C") [] 7]
  | 7%nat => SStruct [Field (bs "X") [] 2]
  | _ => SOther
  end.
Definition xName (t : nat) : bytes := bs "T".
Lemma xNames : names_ok xTypes.
Proof.
  intros t fs f T I1. do 8 (destruct t as [|t]; [cbn in T; try discriminate T; injection T as <-; repeat (destruct I1 as [<-|I1]; [discriminate|]); destruct I1|]). discriminate T.
Qed.
(** One for errors, one for errors and the pointers of the list *)
Definition xErr (_ : bytes) (t : nat) : option nat := match t with 3%nat => Some 30%nat | _ => None end.
Definition xAll (_ : bytes) (t : nat) : option nat := match t with 3%nat => Some 40%nat | 1%nat => Some 41%nat | _ => None end.
Example C140_first_example : encoderOfX xTypes xName false [xErr; xAll] 1 [] 3 = Some (XExt 30) /\ encoderOfX xTypes xName false [xErr; xAll] 1 [] 1 = Some (XExt 41).
Proof. vm_compute. auto. Qed.
Example C140_silent_example : encoderOfX xTypes xName false [fun _ _ => None] 3 [] 4 = Some (XMap XKInterface (XLeaf EStr)) /\ EncoderOf xTypes xName 3 4 = Some (EMap KInterface EStr).
Proof. vm_compute. auto. Qed.
Example C140_untouched_example : encoderOfX xTypes xName false [xErr; xAll] 3 [] 7 = Some (XStruct [(0%nat, bs """X"":", XLeaf EStr)]).
Proof. vm_compute. auto. Qed.
Example C140_fields_example :
  encoderOfX xTypes xName true [xErr; xAll] 2 [] 0 = Some (XStruct [(0%nat, bs """Next"":", XExt 41); (1%nat, bs ",""value"":", XLeaf EStr); (2%nat, bs ",""E"":", XExt 30)]) /\
  encoderOfX xTypes xName false [xErr; xAll] 2 [] 0 = Some (XStruct [(0%nat, bs """Next"":", XExt 41); (2%nat, bs ",""E"":", XExt 30)]).
Proof. vm_compute. auto. Qed.
(** The list can be encoded with the second extension and not with the first *)
Example C140_ends_example : settled xTypes false [xAll] 0 /\ ~ settled xTypes false [xErr] 0.
Proof.
  split.
  - eapply (C140_ends_only xTypes xName false [xAll] 2 []); [exact xNames| |vm_compute; discriminate]. intros p p' t H x [<-|[]]. exact (H xAll (or_introl eq_refl)).
  - intro H. destruct (C140_ends xTypes xName false [xErr] 0 xNames H) as [f F].
    assert (X : forall f p, encoderOfX xTypes xName false [xErr] f p 0 = None /\ encoderOfX xTypes xName false [xErr] f p 1 = None).
    { clear. induction f as [|f IH]; intro p; [split; reflexivity|]. split.
      - cbn [encoderOfX ask xErr xTypes structFieldsX]. replace (is_nil _) with false by reflexivity. rewrite (proj2 (IH _)). reflexivity.
      - cbn [encoderOfX ask xErr xTypes]. rewrite (proj1 (IH _)). reflexivity. }
    exact (F [] (proj1 (X f []))).
Qed.

(** * What does not hold *)

(** Every part of a struct is asked about with a prefix of its own: if an extension never gives one encoder for two prefixes, the parts of two fields do not get the same one from it. *)
Definition distinct (x : bytes -> nat -> option nat) : Prop := forall p p' t, x p t = x p' t -> x p t = None \/ p = p'.
Definition C140_full : Prop := forall types typeName fuel t x i j a b c d e e', distinct x -> encoderOfX types typeName false [x] fuel [] t = Some (XStruct [(i, a, XStruct [(0%nat, b, e)]); (j, c, XStruct [(0%nat, d, e')])]) -> e = e' -> untouched e = true.
(** But in a struct the way to the struct is lost (encoder.go:224): A.X and C.X are the same to an extension. *)
Theorem C140_prefix_refuted : forall x id, x (bs """X"": .X") 2%nat = Some id -> (forall p t, t <> 2%nat -> x p t = None) ->
  encoderOfX xTypes xName false [x] 4 [] 6 = Some (XStruct [(0%nat, bs """A"":", XStruct [(0%nat, bs """X"":", XExt id)]); (2%nat, bs ",""C"":", XStruct [(0%nat, bs """X"":", XExt id)])]).
Proof.
  intros x id H1 H2. cbn [encoderOfX ask]. rewrite (H2 _ 6%nat ltac:(discriminate)). cbn [xTypes structFieldsX]. 
  replace (getFieldNameX xTypes false (Field (bs "A") [] 7)) with (bs "A") by reflexivity. replace (getFieldNameX xTypes false (Field (bs "B") (bs "-") 7)) with (@nil Z) by reflexivity.
  replace (getFieldNameX xTypes false (Field (bs "C") [] 7)) with (bs "C") by reflexivity. replace (getFieldNameX xTypes false (Field (bs "X") [] 2)) with (bs "X") by reflexivity.
  cbn [is_nil f_type encoderOfX ask]. rewrite !(H2 _ 7%nat ltac:(discriminate)). cbn [xTypes structFieldsX f_type].
  replace (getFieldNameX xTypes false (Field (bs "X") [] 2)) with (bs "X") by reflexivity. cbn [is_nil f_type encoderOfX ask].
  replace (fieldPrefix true (bs "X") ++ bs " ." ++ bs "X") with (bs """X"": .X") by reflexivity. rewrite H1. reflexivity.
Qed.
Theorem C140_full_refuted : ~ C140_full.
Proof.
  intro H. set (x := fun (p : bytes) (t : nat) => match t with 2%nat => if list_eq_dec Z.eq_dec p (bs """X"": .X") then Some 5%nat else None | _ => None end).
  assert (D : distinct x). { intros p p' [|[|[|t]]]; cbn; auto. destruct (list_eq_dec Z.eq_dec p _) as [->|]; auto. destruct (list_eq_dec Z.eq_dec p' _) as [->|]; auto; discriminate. }
  assert (E := C140_prefix_refuted x 5 eq_refl). specialize (E ltac:(intros p [|[|[|t]]] N; try reflexivity; contradiction)).
  specialize (H xTypes xName 4%nat 6%nat x _ _ _ _ _ _ _ _ D E eq_refl). discriminate H.
Qed.
(** The encoder that an extension gives for an interface type is not used for keys of this type. *)
Theorem C140_key_refuted : claims [fun _ t => match t with 5%nat => Some 50%nat | _ => None end] (bs " [mapKey]") 5 50 /\
  encoderOfX xTypes xName false [fun _ t => match t with 5%nat => Some 50%nat | _ => None end] 3 [] 4 = Some (XMap XKInterface (XLeaf EStr)).
Proof. split; [|reflexivity]. apply ask_some. reflexivity. Qed.

Print Assumptions C140_first.
Print Assumptions C140_silent.
Print Assumptions C140_untouched.
Print Assumptions C140_fields.
Print Assumptions C140_ends.
Print Assumptions C140_ends_only.
Print Assumptions C140_prefix_refuted.
Print Assumptions C140_full_refuted.
Print Assumptions C140_key_refuted.
