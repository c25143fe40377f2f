(** Properties C04 and C05: JSON text of strings and byte slices. *)
From Verif Require Import Base JsonStrModel JsonStrSpec JsonStrProofs.

(** Characters that RFC 8259 section 7 says must be escaped. *)
Definition must_escape (b : Z) : Prop := b < 32 \/ b = 34 \/ b = 92.

(** "The writer appends to [space] a JSON string literal meaning [s]." *)
Definition appends_literal (out space s : bytes) : Prop :=
  exists t, out = space ++ t /\ json_string t = Some (s, []).

Lemma plain_must : forall b, plain b = true <-> ~ must_escape b.
Proof.
  intros b. unfold plain, must_escape. rewrite !andb_true_iff, !negb_true_iff, !Z.eqb_neq, Z.ltb_lt. lia.
Qed.
Lemma plain_must_f : forall b, plain b = false <-> must_escape b.
Proof.
  intros b. unfold plain, must_escape. rewrite !andb_false_iff, !negb_false_iff, !Z.eqb_eq, Z.ltb_ge. lia.
Qed.

(** C04, full claim.  It is false of the code. *)
Definition C04_full : Prop :=
  forall space s, bytes_ok s -> appends_literal (WriteString space s) space s.

Theorem C04_string_refuted :
  exists s, bytes_ok s /\ s = bs "abc" ++ [10] /\ WriteString [] s = [34] ++ bs "abc" ++ [34].
Proof.
  exists (bs "abc" ++ [10]). split; [|split; [reflexivity|vm_compute; reflexivity]].
  repeat constructor; cbn; lia.
Qed.
Print Assumptions C04_string_refuted.

Lemma first_escape_must : forall s, first_escape_is_last s <->
  exists p c, s = p ++ [c] /\ Forall (fun b => ~ must_escape b) p /\ must_escape c.
Proof.
  intros s. unfold first_escape_is_last. split; intros (p & c & -> & P & C); exists p, c; (split; [reflexivity|]); split.
  - apply Forall_forall. intros b Hb. rewrite forallb_forall in P. apply plain_must. auto.
  - now apply plain_must_f.
  - apply forallb_forall. intros b Hb. rewrite Forall_forall in P. apply plain_must. auto.
  - now apply plain_must_f.
Qed.

(** The literal is right exactly when the first character needing an escape, if there is one, is not
    the last character. *)
Theorem C04_string_exact_iff : forall space s, bytes_ok s ->
  (appends_literal (WriteString space s) space s <->
   ~ exists p c, s = p ++ [c] /\ Forall (fun b => ~ must_escape b) p /\ must_escape c).
Proof. intros. rewrite <- first_escape_must. now apply WriteString_roundtrip_iff. Qed.
Print Assumptions C04_string_exact_iff.
Example C04_string_ex : appends_literal (WriteString [7] ([10; 34; 92; 228; 9; 1])) [7] [10; 34; 92; 228; 9; 1].
Proof. eexists. split; [vm_compute; reflexivity|vm_compute; reflexivity]. Qed.

(** In every case the output is one well-formed string literal; whatever is appended afterwards is
    left over by the reader; the only possible damage is the loss of the last byte. *)
Theorem C04_string_wellformed : forall space s, bytes_ok s ->
  exists t u, WriteString space s = space ++ t /\ (u = s \/ u = removelast s) /\
    forall after, json_string (t ++ after) = Some (u, after).
Proof.
  intros space s Hs. destruct (WriteString_decodes space s Hs) as (t & u & E & D).
  exists t, u. split; auto. split; [|intros r; apply (D r)].
  destruct (D []) as [_ [[_ H]|[_ H]]]; auto.
Qed.
Print Assumptions C04_string_wellformed.

Theorem C04_full_refuted : ~ C04_full.
Proof.
  intros F. specialize (F [] [10] ltac:(repeat constructor; cbn; lia)).
  destruct F as (t & E & J). vm_compute in E. subst t. vm_compute in J. discriminate.
Qed.
Print Assumptions C04_full_refuted.

(** C05, full claim: the literal means the display form of the bytes.  It is false of the code. *)
Definition C05_full : Prop :=
  forall space s, bytes_ok s -> appends_literal (WriteBytes space s) space (display s).

(** Printable ASCII other than the quote and the backslash. *)
Definition ascii_plain (b : Z) : Prop := 32 <= b < 128 /\ b <> 34 /\ b <> 92.

(** "\n" then "ab" then 0xe4: the two letters disappear. *)
Theorem C05_bytes_refuted :
  exists s, bytes_ok s /\ s = [10] ++ bs "ab" ++ [228] /\ WriteBytes [] s = [34] ++ bs "\n\\xe4" ++ [34].
Proof.
  eexists. split; [|split; [reflexivity|vm_compute; reflexivity]].
  repeat constructor; cbn; lia.
Qed.
Print Assumptions C05_bytes_refuted.

Lemma safe_ascii : forall b, safeSet b = true <-> ascii_plain b.
Proof.
  intros b. unfold safeSet, ascii_plain.
  rewrite !andb_true_iff, !negb_true_iff, !Z.eqb_neq, Z.ltb_lt, Z.leb_le. lia.
Qed.
Lemma safe_ascii_f : forall b, safeSet b = false <-> ~ ascii_plain b.
Proof. intros b. rewrite <- safe_ascii. destruct (safeSet b); split; congruence. Qed.

(** The bytes on which information is lost: the first byte that is not plain ASCII is the last one, or
    somewhere after such a byte a plain byte stands directly before a byte >= 0x80. *)
Definition loses (s : bytes) : Prop :=
  (exists p c, s = p ++ [c] /\ Forall ascii_plain p /\ ~ ascii_plain c) \/
  (exists x c y a h z, s = x ++ c :: y ++ a :: h :: z /\ ~ ascii_plain c /\ ascii_plain a /\ 128 <= h).

Lemma loses_lossy : forall s, loses s <-> bytes_lossy s.
Proof.
  intros s. unfold loses, bytes_lossy. split.
  - intros [(p & c & E & P & C)|(x & c & y & a & h & z & E & C & A & H)].
    + left. exists p, c. split; auto. split; [|now apply safe_ascii_f].
      apply forallb_forall. intros b Hb. rewrite Forall_forall in P. apply safe_ascii. auto.
    + right. exists x, c, y, a, h, z. rewrite safe_ascii_f, safe_ascii. unfold is_high. rewrite Z.leb_le. auto.
  - intros [(p & c & E & P & C)|(x & c & y & a & h & z & E & C & A & H)].
    + left. exists p, c. split; auto. split; [|now apply safe_ascii_f].
      apply Forall_forall. intros b Hb. rewrite forallb_forall in P. apply safe_ascii. auto.
    + right. exists x, c, y, a, h, z. rewrite safe_ascii_f in C. rewrite safe_ascii in A.
      unfold is_high in H. rewrite Z.leb_le in H. auto.
Qed.

Theorem C05_bytes_exact_iff : forall space s, bytes_ok s ->
  (appends_literal (WriteBytes space s) space (display s) <-> ~ loses s).
Proof. intros. rewrite loses_lossy. now apply WriteBytes_iff. Qed.
Print Assumptions C05_bytes_exact_iff.
Example C05_bytes_ex :
  appends_literal (WriteBytes [] [97; 228; 184; 173; 10; 65; 66]) [] (97 :: bs "\xe4\xb8\xad" ++ [10; 65; 66])
  /\ display [97; 228; 184; 173; 10; 65; 66] = 97 :: bs "\xe4\xb8\xad" ++ [10; 65; 66].
Proof. split; [eexists; split; [vm_compute; reflexivity|vm_compute; reflexivity]|vm_compute; reflexivity]. Qed.

(** The output is always one well-formed string literal. *)
Theorem C05_bytes_wellformed : forall space s, bytes_ok s ->
  exists t u, WriteBytes space s = space ++ t /\ forall after, json_string (t ++ after) = Some (u, after).
Proof.
  intros space s Hs. destruct (WriteBytes_spec space s Hs) as (t & u & E & D & _). eauto.
Qed.
Print Assumptions C05_bytes_wellformed.

(** Even where nothing is dropped the text does not determine the bytes: the four ASCII characters
    \xe4 and the byte 0xe4 give the same text. *)
Theorem C05_bytes_ambiguous : exists s1 s2, bytes_ok s1 /\ bytes_ok s2 /\ s1 <> s2 /\
  ~ loses s1 /\ ~ loses s2 /\ WriteBytes [] s1 = WriteBytes [] s2.
Proof.
  exists [228; 228], (bs "\xe4\xe4").
  assert (O1 : bytes_ok [228; 228]) by (repeat constructor; cbn; lia).
  assert (O2 : bytes_ok (bs "\xe4\xe4")) by (repeat constructor; cbn; lia).
  split; auto. split; auto. split; [discriminate|].
  split; [|split; [|vm_compute; reflexivity]].
  - apply (C05_bytes_exact_iff [] _ O1). eexists; split; [vm_compute; reflexivity|vm_compute; reflexivity].
  - apply (C05_bytes_exact_iff [] _ O2). eexists; split; [vm_compute; reflexivity|vm_compute; reflexivity].
Qed.
Print Assumptions C05_bytes_ambiguous.

Theorem C05_full_refuted : ~ C05_full.
Proof.
  intros F. specialize (F [] [10] ltac:(repeat constructor; cbn; lia)).
  destruct F as (t & E & J). vm_compute in E. subst t. vm_compute in J. discriminate.
Qed.
Print Assumptions C05_full_refuted.
