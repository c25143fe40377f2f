(** Properties C19-C21, C49, C50: the msgfmt package. *)
From Verif Require Import Base JsonStrSpec JsonStrModel JsonStrProofs ParseModel ParseSpec ParseProofs ParseReadProofs MsgfmtModel MsgfmtSpec
  MsgfmtBytesProofs MsgfmtProofs MsgfmtTopProofs.
Open Scope Z_scope.
Open Scope list_scope.

(** The theorems hold for all instances of the code of other packages that msgfmt calls: the json encoder of a type (jsonfmt),
    Time.String, Time.Format, strings.TrimSpace, the %v text of an argument list, the text of a panic value. *)
Section Claims.
  Variable encoderOf : Z -> option (value -> option bytes).
  Variable timeString : Z -> bytes.
  Variable timeFormat : bytes -> Z -> bytes.
  Variable trimSpace : bytes -> bytes.
  Variable argsText : list value -> bytes.
  Variable panicText : bytes.
  Notation Sprintf := (Sprintf encoderOf timeString timeFormat trimSpace argsText panicText).
  Notation fprintf := (fprintf encoderOf timeString timeFormat trimSpace argsText panicText).
  Notation fprintln := (fprintln encoderOf timeString timeFormat trimSpace argsText panicText).
  Notation expands := (expands encoderOf timeString timeFormat trimSpace).
  Notation cache_after := (cache_after encoderOf timeString timeFormat trimSpace argsText panicText).

  (** The call ends in [o] (with every sufficient amount of fuel). *)
  Definition ends (c : cache) (format : bytes) (kv : list value) (o : outcome bytes) : Prop :=
    exists m, forall fuel, (m <= fuel)%nat -> fst (Sprintf fuel c format kv) = o.

  Lemma ends_det : forall c f kv a b, ends c f kv a -> ends c f kv b -> a = b.
  Proof. intros c f kv a b (m & A) (n & B). rewrite <- (A (m + n)%nat) by lia. apply B. lia. Qed.

  (** * C19 *)
  Theorem C19_sprintf_substitutes : forall t kv out c,
    template_ok t -> template_text t <> [] -> load c (template_text t) = None ->
    expands kv (t_parts t) (t_end t) out -> ends c (template_text t) kv (Returns out).
  Proof.
    intros t kv out c H N L X. exists (fuel_for t). intros fuel F.
    exact (Sprintf_expands encoderOf timeString timeFormat trimSpace argsText panicText t kv out c H N L X fuel F).
  Qed.

  (** A format without placeholders is returned as it is. *)
  Theorem C19_sprintf_literal : forall s kv c, s <> [] -> ~ In 123 s -> load c s = None -> ends c s kv (Returns s).
  Proof.
    intros s kv c N H L. change s with (template_text (mkTemplate [] s)) at 1. apply C19_sprintf_substitutes; auto.
    - split; [constructor|exact H].
    - constructor.
  Qed.

  (** * C20 *)

  (** Full claim: every call returns.  It is false of the code. *)
  Definition C20_full : Prop := forall format kv c, load c format = None -> exists out, ends c format kv (Returns out).

  (** Exactly which of the templates with plain placeholders return; all the others panic: the empty one, those
      with a placeholder whose key is not in the list, or has no value, or comes after a key that is not a string,
      and those with a value whose text cannot be made. *)
  Theorem C20_plain_partial : forall t kv c, template_ok t -> plain_template t -> load c (template_text t) = None ->
    let fine := template_text t <> [] /\
      Forall (fun x => exists v, value_of kv (key_of (snd x)) = Some v /\ printable encoderOf v) (t_parts t) in
    ((exists out, ends c (template_text t) kv (Returns out)) <-> fine) /\
    (ends c (template_text t) kv Panics <-> ~ fine).
  Proof.
    intros t kv c H P L fine.
    destruct (Sprintf_plain encoderOf timeString timeFormat trimSpace argsText panicText t kv c H P L) as [(N & F & out & K)|[N K]].
    - assert (R : ends c (template_text t) kv (Returns out)) by (exists (fuel_for t); exact K). split; [split; intros _|split].
      + split; auto.
      + eauto.
      + intros Q. discriminate (ends_det _ _ _ _ _ R Q).
      + intros Q. exfalso. apply Q. split; auto.
    - assert (R : ends c (template_text t) kv Panics) by (exists (fuel_for t); exact K). split; split.
      + intros [out Q]. discriminate (ends_det _ _ _ _ _ R Q).
      + intros Q. exfalso. apply N. exact Q.
      + intros _. exact N.
      + intros _. exact R.
  Qed.

  (** A placeholder that is not closed: the call never returns. *)
  Theorem C20_unterminated_refuted : forall t kv c before name, template_ok t -> plain_template t ->
    Forall (fun x => exists v, value_of kv (key_of (snd x)) = Some v /\ printable encoderOf v) (t_parts t) ->
    space_runes before -> Forall name_rune name -> match name with r :: _ => unicodeIsSpace r = false | [] => True end ->
    let text := template_text t ++ bs "{" ++ runes_text before ++ runes_text name in
    load c text = None -> ends c text kv Unfinished.
  Proof.
    intros t kv c before name H P F B N S text L. exists (fuel_for t + List.length before)%nat. intros fuel G.
    exact (Sprintf_unfinished encoderOf timeString timeFormat trimSpace argsText panicText t kv c before name H F P B N S L fuel G).
  Qed.

  (** An unknown function: reported in the text when the placeholder comes first, otherwise a panic. *)
  Theorem C20_unknown_function_refuted : forall kv,
    ends [] (bs "x{k, f}") kv Panics /\ ends [] (bs "{k, f}") kv (Returns (bs "%! (INVALID FORMAT) format f is not supported%! (FORMAT ARGS) " ++ argsText kv)).
  Proof.
    intros kv. split; exists 30%nat; intros fuel L; do 30 (destruct fuel as [|fuel]; [lia|]); vm_compute; reflexivity.
  Qed.

  (** The reserved functions of ICU message formats panic. *)
  Theorem C20_select_plural_refuted : forall kv,
    ends [] (bs "{k, select}") kv Panics /\ ends [] (bs "{k, plural}") kv Panics.
  Proof.
    intros kv. split; exists 30%nat; intros fuel L; do 30 (destruct fuel as [|fuel]; [lia|]); vm_compute; reflexivity.
  Qed.
  Theorem C20_full_refuted : ~ C20_full.
  Proof.
    intros F. destruct (F [] [] [] eq_refl) as (out & Q).
    assert (H : template_ok (mkTemplate [] [])) by (split; [constructor|intros []]).
    destruct (C20_plain_partial (mkTemplate [] []) [] [] H ltac:(constructor) eq_refl) as [[A _] _].
    destruct (A (ex_intro _ out Q)) as [N _]. now apply N.
  Qed.

  (** * C21 *)
  (** Full claim: calls made before do not change the result.  It is false of the code. *)
  Definition C21_full : Prop := forall h format kv,
    (exists m, forall fuel, (m <= fuel)%nat -> fst (Sprintf fuel (cache_after fuel [] h) format kv) = fst (Sprintf fuel [] format kv)).

  (** If the format was only used with the keys at the same places and values of the same types, the history
      does not matter. *)
  Theorem C21_same_shape_partial : forall fuel h format kv,
    (forall kv', In (format, kv') h -> same_shape kv' kv) ->
    fst (Sprintf fuel (cache_after fuel [] h) format kv) = fst (Sprintf fuel [] format kv).
  Proof. intros. now apply Sprintf_history. Qed.

  (** Calls with other formats do not matter. *)
  Theorem C21_other_formats_partial : forall fuel h format kv, (forall kv', ~ In (format, kv') h) ->
    fst (Sprintf fuel (cache_after fuel [] h) format kv) = fst (Sprintf fuel [] format kv).
  Proof. intros fuel h format kv H. apply Sprintf_history. intros kv' Q. now apply H in Q. Qed.

  (** The keys in another order: the wrong value is printed. *)
  Theorem C21_order_refuted :
    let h := [(bs "{a}", [VStr (bs "a"); VStr (bs "1"); VStr (bs "b"); VStr (bs "2")])] in
    let kv := [VStr (bs "b"); VStr (bs "2"); VStr (bs "a"); VStr (bs "1")] in
    forall fuel, (30 <= fuel)%nat ->
    fst (Sprintf fuel (cache_after fuel [] h) (bs "{a}") kv) = Returns (bs "2") /\
    fst (Sprintf fuel [] (bs "{a}") kv) = Returns (bs "1").
  Proof. intros h kv fuel L. do 30 (destruct fuel as [|fuel]; [lia|]). split; vm_compute; reflexivity. Qed.

  (** A value of another type: panic. *)
  Theorem C21_type_refuted :
    let h := [(bs "{a}", [VStr (bs "a"); VStr (bs "1")])] in
    let kv := [VStr (bs "a"); VByt (bs "1")] in
    forall fuel, (30 <= fuel)%nat ->
    fst (Sprintf fuel (cache_after fuel [] h) (bs "{a}") kv) = Panics /\
    fst (Sprintf fuel [] (bs "{a}") kv) = Returns (bs "1").
  Proof. intros h kv fuel L. do 30 (destruct fuel as [|fuel]; [lia|]). split; vm_compute; reflexivity. Qed.

  Theorem C21_full_refuted : ~ C21_full.
  Proof.
    intros F. destruct (F [(bs "{a}", [VStr (bs "a"); VStr (bs "1"); VStr (bs "b"); VStr (bs "2")])] (bs "{a}") [VStr (bs "b"); VStr (bs "2"); VStr (bs "a"); VStr (bs "1")]) as (m & K).
    specialize (K (m + 30)%nat ltac:(lia)). destruct (C21_order_refuted (m + 30)%nat ltac:(lia)) as [A B].
    rewrite A, B in K. discriminate K.
  Qed.

  (** * C50 *)
  (** Fprintf writes what Sprintf returns and leaves the same cache, whatever is in the pooled buffer. *)
  Theorem C50_fprintf : forall fuel c pooled format kv, fprintf fuel c pooled format kv = Sprintf fuel c format kv.
  Proof. reflexivity. Qed.

  (** Fprintln with one value writes the text of the value and a newline. *)
  Theorem C50_fprintln : forall v s pooled c sliceOf, load c (bs "{single_value}" ++ [10]) = None -> shows encoderOf timeString v s ->
    fst (fprintln 0 c pooled sliceOf [v]) = Writer /\
    exists m, forall fuel, (m <= fuel)%nat -> fst (snd (fprintln fuel c pooled sliceOf [v])) = Returns (s ++ [10]).
  Proof.
    intros v s pooled c sliceOf L H. split; [reflexivity|].
    set (t := mkTemplate [([], mkPlaceholder [] (bs "single_value") [] None)] [10]).
    assert (E : ends c (template_text t) [VStr (bs "single_value"); v] (Returns ([] ++ s ++ [10]))).
    { apply C19_sprintf_substitutes.
      - split; [constructor; [|constructor]|]; cbn [fst snd t_end t].
        + split; [intros []|]. unfold placeholder_ok. cbn [p_before p_after p_name p_time]. split; [constructor|]. split; [constructor|].
          split; [|split; [reflexivity|auto]].
          repeat (constructor; [split; [unfold is_scalar; left; vm_compute; split; congruence|split; reflexivity]|]). constructor.
        + intros [Q|[]]. discriminate Q.
      - discriminate.
      - exact L.
      - constructor; [|constructor]. exists v. split; [reflexivity|]. exact H. }
    exact E.
  Qed.
  (** Fprintln with several values writes the text of the slice of the values and a newline. *)
  Theorem C50_fprintln_many : forall v1 v2 vs s pooled c sliceOf, load c (bs "{multiple_values}" ++ [10]) = None ->
    shows encoderOf timeString (sliceOf (v1 :: v2 :: vs)) s ->
    fst (fprintln 0 c pooled sliceOf (v1 :: v2 :: vs)) = Writer /\
    exists m, forall fuel, (m <= fuel)%nat -> fst (snd (fprintln fuel c pooled sliceOf (v1 :: v2 :: vs))) = Returns (s ++ [10]).
  Proof.
    intros v1 v2 vs s pooled c sliceOf L H. split; [reflexivity|].
    set (t := mkTemplate [([], mkPlaceholder [] (bs "multiple_values") [] None)] [10]).
    assert (E : ends c (template_text t) [VStr (bs "multiple_values"); sliceOf (v1 :: v2 :: vs)] (Returns ([] ++ s ++ [10]))).
    { apply C19_sprintf_substitutes.
      - split; [constructor; [|constructor]|]; cbn [fst snd t_end t].
        + split; [intros []|]. unfold placeholder_ok. cbn [p_before p_after p_name p_time]. split; [constructor|]. split; [constructor|].
          split; [|split; [reflexivity|auto]].
          repeat (constructor; [split; [unfold is_scalar; left; vm_compute; split; congruence|split; reflexivity]|]). constructor.
        + intros [Q|[]]. discriminate Q.
      - discriminate.
      - exact L.
      - constructor; [|constructor]. exists (sliceOf (v1 :: v2 :: vs)). split; [reflexivity|]. exact H. }
    exact E.
  Qed.
  (** Fprintln without values prints its newline to the standard output, not to the writer it was given. *)
  Theorem C50_fprintln_nothing_refuted : forall fuel c pooled sliceOf,
    fprintln fuel c pooled sliceOf [] = (StandardOutput, (Returns [10], c)).
  Proof. reflexivity. Qed.
  Definition C50_full : Prop := forall fuel c pooled sliceOf values, fst (fprintln fuel c pooled sliceOf values) = Writer.
  Theorem C50_full_refuted : ~ C50_full.
  Proof. intro H. specialize (H O [] [] (fun _ => VStr []) []). discriminate H. Qed.
End Claims.

(** * C49 *)
(** Full claim: a []byte is shown byte by byte.  It is false of the code. *)
Definition C49_full : Prop := forall space s, bytes_ok s -> fmtWriteBytes space s = space ++ escaped_all s.

Theorem C49_bytes_shown_partial : forall space s, bytes_ok s ->
  (fmtWriteBytes space s = space ++ escaped_all s <-> ~ fmt_loses s).
Proof. exact fmtWriteBytes_iff. Qed.

(** Printable ASCII without backslash and vertical bar is shown as it is. *)
Theorem C49_clear_partial : forall space s, Forall clear s -> fmtWriteBytes space s = space ++ s.
Proof.
  intros space s H. assert (B : bytes_ok s).
  { eapply Forall_impl; [|exact H]. intros a [Q _]. unfold byte_ok. lia. }
  rewrite (proj2 (fmtWriteBytes_iff space s B)).
  - f_equal. induction H as [|a s [Q [Q1 Q2]] _ IH]; [reflexivity|]. inversion B; subst. unfold escaped_all in *. cbn [flat_map]. rewrite IH by auto.
    unfold escaped. replace ((32 <=? a) && (a <? 128) && negb (a =? 92) && negb (a =? 124)) with true; [reflexivity|].
    symmetry. rewrite !andb_true_iff, !negb_true_iff. lia.
  - intros [(p & c & -> & _ & N)|(x & c & y & a & h & z & -> & N & _)]; apply N.
    + apply Forall_app in H as [_ H]. now inversion H.
    + apply Forall_app in H as [_ H]. now inversion H.
Qed.

(** A byte slice ending in its only special byte loses it, and a clear byte before a byte >= 0x80 is lost. *)
Theorem C49_loss_refuted :
  fmtWriteBytes [] [104; 105; 10] = bs "hi" /\ fmtWriteBytes [] ([10] ++ bs "a" ++ [200] ++ bs "b") <> escaped_all ([10] ++ bs "a" ++ [200] ++ bs "b").
Proof. split; [reflexivity|discriminate]. Qed.
Theorem C49_full_refuted : ~ C49_full.
Proof. intros F. specialize (F [] [104; 105; 10] ltac:(repeat constructor; unfold byte_ok; lia)). discriminate F. Qed.

Print Assumptions C19_sprintf_substitutes.
Print Assumptions C19_sprintf_literal.
Print Assumptions C20_plain_partial.
Print Assumptions C20_unterminated_refuted.
Print Assumptions C20_unknown_function_refuted.
Print Assumptions C20_select_plural_refuted.
Print Assumptions C20_full_refuted.
Print Assumptions C21_same_shape_partial.
Print Assumptions C21_other_formats_partial.
Print Assumptions C21_order_refuted.
Print Assumptions C21_type_refuted.
Print Assumptions C21_full_refuted.
Print Assumptions C49_bytes_shown_partial.
Print Assumptions C49_clear_partial.
Print Assumptions C49_loss_refuted.
Print Assumptions C49_full_refuted.
Print Assumptions C50_fprintf.
Print Assumptions C50_fprintln.
Print Assumptions C50_fprintln_many.
Print Assumptions C50_fprintln_nothing_refuted.
Print Assumptions C50_full_refuted.

(** * Examples *)
(** json: type 7 is encoded as its payload's last digit; other types have no encoder. *)
Definition ex_enc (ty : Z) : option (value -> option bytes) :=
  if ty =? 7 then Some (fun v => match v with VAny _ x => if 0 <=? x then Some [48 + x mod 10] else None | _ => None end) else None.
Definition ex_time (t : Z) : bytes := bs "t" ++ [48 + t mod 10].
Definition ex_format (layout : bytes) (t : Z) : bytes := layout ++ bs "@" ++ [48 + t mod 10].
Definition ex_trim (s : bytes) : bytes := match s with 32 :: r => r | _ => s end.
Definition ex_args (l : list value) : bytes := bs "args".

Definition ex_template : template :=
  mkTemplate [(bs "hello ", mkPlaceholder [] (bs "name") [] None); (bs ", at ", mkPlaceholder [32] (bs "at") [] (Some ([32], [bs " 15:04"])));
    ([], mkPlaceholder [] (bs "n") [32] None); (bs "|", mkPlaceholder [] (bs "b") [] None)] (bs "}!").
Definition ex_kv : list value :=
  [VStr (bs "n"); VAny 7 5; VStr (bs "name"); VStringer 3 (Some (bs "bob")); VStr (bs "name"); VStr (bs "ann");
   VStr (bs "at"); VTime 12; VStr (bs "b"); VByt [10; 200; 104]].

Lemma ex_runes : forall s, forallb (fun r => (0 <=? r) && (r <? 55296) && negb (Pattern_White_Space r) && negb (Pattern_Syntax r)) s = true -> Forall name_rune s.
Proof.
  induction s as [|r s IH]; intros H; constructor; cbn [forallb] in H; apply andb_true_iff in H as [H H'].
  - rewrite !andb_true_iff, !negb_true_iff in H. split; [left; lia|]. split; tauto.
  - auto.
Qed.
Lemma ex_spaces : forall s, forallb (fun r => (0 <=? r) && (r <? 55296) && unicodeIsSpace r) s = true -> space_runes s.
Proof.
  induction s as [|r s IH]; intros H; constructor; cbn [forallb] in H; apply andb_true_iff in H as [H H'].
  - rewrite !andb_true_iff in H. split; [left; lia|]. tauto.
  - apply IH; auto.
Qed.

Lemma ex_notin : forall c s, forallb (fun x => negb (x =? c)) s = true -> ~ In c s.
Proof. intros c s H Q. rewrite forallb_forall in H. apply H in Q. rewrite Z.eqb_refl in Q. discriminate Q. Qed.

Ltac ex_ok :=
  lazymatch goal with
  | |- template_ok _ => split; cbn [t_parts t_end ex_template]; ex_ok
  | |- Forall layout_ok _ => repeat constructor; apply ex_notin; reflexivity
  | |- Forall name_rune _ => apply ex_runes; reflexivity
  | |- space_runes _ => apply ex_spaces; reflexivity
  | |- Forall _ [] => constructor
  | |- Forall _ (_ :: _) => constructor; ex_ok
  | |- ~ In _ _ => apply ex_notin; reflexivity
  | |- placeholder_ok _ => unfold placeholder_ok; cbn [p_before p_after p_name p_time]; ex_ok
  | |- _ /\ _ => split; cbn [fst snd]; ex_ok
  | |- match _ with _ => _ end => first [reflexivity | exact I | cbn; ex_ok]
  | |- _ => first [reflexivity | exact I]
  end.

Lemma ex_template_ok : template_ok ex_template.
Proof. ex_ok. Qed.

Lemma ex_bytes : forall s, forallb (fun b => (0 <=? b) && (b <? 256)) s = true -> bytes_ok s.
Proof.
  induction s as [|b s IH]; intros H; constructor; cbn [forallb] in H; apply andb_true_iff in H as [H H'].
  - unfold byte_ok. lia.
  - apply IH; auto.
Qed.

Example C19_example :
  template_text ex_template = bs "hello {name}, at { at, goTime, 15:04}{n }|{b}}!" /\
  load [] (template_text ex_template) = None /\
  ends ex_enc ex_time ex_format ex_trim ex_args [] [] (template_text ex_template) ex_kv (Returns (bs "hello bob, at 15:04@25|\n\xc8h}!")).
Proof.
  split; [reflexivity|]. split; [reflexivity|]. apply C19_sprintf_substitutes; [exact ex_template_ok|discriminate|reflexivity|].
  cbn [t_parts t_end ex_template].
  change (bs "hello bob, at 15:04@25|\n\xc8h}!") with (bs "hello " ++ bs "bob" ++ bs ", at " ++ bs "15:04@2" ++ [] ++ bs "5" ++ bs "|" ++ bs "\n\xc8h" ++ bs "}!").
  repeat (apply expands_part; [|]); [..|constructor].
  - eexists. split; [reflexivity|]. apply shows_stringer.
  - eexists. split; [reflexivity|]. exists 12. split; reflexivity.
  - eexists. split; [reflexivity|]. eapply shows_json; reflexivity.
  - eexists. split; [reflexivity|]. cbn [p_time]. change (bs "\n\xc8h") with (escaped_all [10; 200; 104]). apply shows_bytes.
    + apply ex_bytes; reflexivity.
    + apply (fmtWriteBytes_iff []); [apply ex_bytes|]; reflexivity.
Qed.

(** The model computes the same. *)
Example C19_example_run :
  fst (Sprintf ex_enc ex_time ex_format ex_trim ex_args [] 60 [] (template_text ex_template) ex_kv) = Returns (bs "hello bob, at 15:04@25|\n\xc8h}!").
Proof. vm_compute. reflexivity. Qed.

Example C19_literal_example : ends ex_enc ex_time ex_format ex_trim ex_args [] [] (bs "no }placeholder") [] (Returns (bs "no }placeholder")).
Proof. apply C19_sprintf_literal; [discriminate|apply ex_notin; reflexivity|reflexivity]. Qed.

Definition ex_plain : template :=
  mkTemplate [(bs "a=", mkPlaceholder [] (bs "a") [] None); (bs " b=", mkPlaceholder [] (bs "b") [] None)] [].
Lemma ex_plain_ok : template_ok ex_plain.
Proof. split; cbn [t_parts t_end ex_plain]; ex_ok. Qed.
(** With a value of an encodable type it returns; with a missing key, an odd list, a key that is not a string
    or a type without encoder it panics. *)
Example C20_example :
  (exists out, ends ex_enc ex_time ex_format ex_trim ex_args [] [] (template_text ex_plain) [VStr (bs "b"); VAny 7 3; VStr (bs "a"); VByt [1]] (Returns out)) /\
  ends ex_enc ex_time ex_format ex_trim ex_args [] [] (template_text ex_plain) [VStr (bs "a"); VStr []] Panics /\
  ends ex_enc ex_time ex_format ex_trim ex_args [] [] (template_text ex_plain) [VStr (bs "a"); VStr []; VStr (bs "b")] Panics /\
  ends ex_enc ex_time ex_format ex_trim ex_args [] [] (template_text ex_plain) [VByt []; VStr []; VStr (bs "a"); VStr []; VStr (bs "b"); VStr []] Panics /\
  ends ex_enc ex_time ex_format ex_trim ex_args [] [] (template_text ex_plain) [VStr (bs "a"); VStr []; VStr (bs "b"); VAny 8 1] Panics.
Proof.
  assert (P : plain_template ex_plain) by (repeat constructor).
  split; [|repeat split]; apply (C20_plain_partial _ _ _ _ _ _ ex_plain); auto using ex_plain_ok.
  - split; [discriminate|]. constructor; [|constructor; [|constructor]].
    + eexists. split; [reflexivity|exact I].
    + eexists. split; [reflexivity|]. do 2 eexists. split; reflexivity.
  - intros [_ H]. inversion H as [|? ? _ H']; subst. inversion H' as [|? ? (v & Q & _) _]; subst. discriminate Q.
  - intros [_ H]. inversion H as [|? ? _ H']; subst. inversion H' as [|? ? (v & Q & _) _]; subst. discriminate Q.
  - intros [_ H]. inversion H as [|? ? (v & Q & _) _]; subst. discriminate Q.
  - intros [_ H]. inversion H as [|? ? _ H']; subst. inversion H' as [|? ? (v & Q & R) _]; subst. injection Q as <-.
    destruct R as (enc & s & R & _). discriminate R.
Qed.

Example C20_unterminated_example :
  ends ex_enc ex_time ex_format ex_trim ex_args [] [] (template_text ex_plain ++ bs "{ c") [VStr (bs "a"); VStr []; VStr (bs "b"); VStr []] Unfinished.
Proof.
  apply (C20_unterminated_refuted _ _ _ _ _ _ ex_plain _ [] [32] (bs "c")).
  - exact ex_plain_ok.
  - repeat constructor.
  - repeat constructor; eexists; (split; [reflexivity|exact I]).
  - apply ex_spaces; reflexivity.
  - apply ex_runes; reflexivity.
  - reflexivity.
  - reflexivity.
Qed.

Example C21_example :
  let kv' := [VStr (bs "a"); VStr (bs "1"); VStr (bs "b"); VAny 7 2] in
  let kv := [VStr (bs "a"); VStr (bs "9"); VStr (bs "b"); VAny 7 8] in
  (forall x, In (bs "{a}{b}", x) [(bs "{a}{b}", kv'); (bs "{b}", kv)] -> same_shape x kv) /\
  fst (Sprintf ex_enc ex_time ex_format ex_trim ex_args [] 40
    (cache_after ex_enc ex_time ex_format ex_trim ex_args [] 40 [] [(bs "{a}{b}", kv'); (bs "{b}", kv)]) (bs "{a}{b}") kv) = Returns (bs "98").
Proof.
  intros kv' kv. split; [|vm_compute; reflexivity]. intros x [H|[H|[]]]; [|discriminate H]. injection H as <-. repeat split.
Qed.

Example C49_example : Forall clear (bs "hi there") /\ ~ fmt_loses [10; 104; 105] /\ fmtWriteBytes (bs "x") [10; 104; 105] = bs "x\nhi".
Proof.
  split; [repeat constructor; vm_compute; congruence|]. split; [|reflexivity].
  apply (fmtWriteBytes_iff []); [apply ex_bytes; reflexivity|reflexivity].
Qed.

Definition ex_slice (vs : list value) : value := VAny 7 (lenZ vs).
Example C50_example :
  shows ex_enc ex_time (VAny 7 12) (bs "2") /\
  snd (fprintln ex_enc ex_time ex_format ex_trim ex_args [] 40 [] (bs "old contents") ex_slice [VAny 7 12]) =
  fprintf ex_enc ex_time ex_format ex_trim ex_args [] 40 [] [] (bs "{single_value}" ++ [10]) [VStr (bs "single_value"); VAny 7 12] /\
  fst (snd (fprintln ex_enc ex_time ex_format ex_trim ex_args [] 40 [] (bs "old contents") ex_slice [VAny 7 12])) = Returns (bs "2" ++ [10]).
Proof. split; [eapply shows_json; reflexivity|split; [reflexivity|vm_compute; reflexivity]]. Qed.
Example C50_example_many :
  shows ex_enc ex_time (ex_slice [VAny 7 12; VStr (bs "a"); VAny 7 1]) (bs "3") /\
  fst (snd (fprintln ex_enc ex_time ex_format ex_trim ex_args [] 40 [] (bs "old contents") ex_slice [VAny 7 12; VStr (bs "a"); VAny 7 1])) = Returns (bs "3" ++ [10]).
Proof. split; [eapply shows_json; reflexivity|vm_compute; reflexivity]. Qed.
