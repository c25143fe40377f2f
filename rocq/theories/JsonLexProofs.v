(** A lexical property of JSON texts: outside of string literals only few characters occur. *)
From Verif Require Import Base DecimalSpec JsonStrSpec JsonSpec.

(** Outside of a string literal, inside, after a backslash. *)
Inductive lex := Out | In_ | Esc.
Definition digitish (c : Z) : bool := is_digit c || existsb (Z.eqb c) [43; 45; 46; 101; 69].
Definition outside (c : Z) : bool :=
  is_ws c || digitish c || existsb (Z.eqb c) (bs "[]{},:truefalsn").
Fixpoint scan (st : lex) (s : bytes) : option lex :=
  match s with
  | [] => Some st
  | c :: s =>
    match st with
    | Out => if c =? 34 then scan In_ s else if outside c then scan Out s else None
    | In_ => if c =? 34 then scan Out s else if c =? 92 then scan Esc s else scan In_ s
    | Esc => scan In_ s
    end
  end.

Lemma scan_app : forall a b st st', scan st a = Some st' -> scan st (a ++ b) = scan st' b.
Proof.
  induction a as [|c a IH]; intros b st st' H; [injection H as ->; reflexivity|]. cbn [app scan] in *.
  destruct st; repeat (destruct (c =? _); [apply IH; exact H|]); [|apply IH; exact H|apply IH; exact H].
  destruct (outside c); [apply IH; exact H|discriminate H].
Qed.
Lemma scan_app_none : forall a b st, scan st a = None -> scan st (a ++ b) = None.
Proof.
  induction a as [|c a IH]; intros b st H; [discriminate H|]. cbn [app scan] in *.
  destruct st; repeat (destruct (c =? _); [apply IH; exact H|]); [|apply IH; exact H|apply IH; exact H].
  destruct (outside c); [apply IH; exact H|reflexivity].
Qed.

(** [r] is what is left of [s] after a part that leads from [a] to [b]. *)
Definition leads (a b : lex) (s r : bytes) : Prop := exists p, s = p ++ r /\ scan a p = Some b.
Lemma leads_refl : forall a s, leads a a s s.
Proof. intros a s. exists []. auto. Qed.
Lemma leads_trans : forall a b c s r q, leads a b s r -> leads b c r q -> leads a c s q.
Proof.
  intros a b c s r q (p & -> & A) (p' & -> & B). exists (p ++ p'). split; [now rewrite app_assoc|]. rewrite (scan_app _ _ _ _ A). exact B.
Qed.
Lemma leads_out : forall c s r b, outside c = true -> c <> 34 -> leads Out b s r -> leads Out b (c :: s) r.
Proof.
  intros c s r b O N (p & -> & A). exists (c :: p). split; auto. cbn [scan]. rewrite (proj2 (Z.eqb_neq c 34) N), O. exact A.
Qed.
Lemma leads_in : forall c s r b, c <> 34 -> c <> 92 -> leads In_ b s r -> leads In_ b (c :: s) r.
Proof.
  intros c s r b N M (p & -> & A). exists (c :: p). split; auto. cbn [scan]. rewrite (proj2 (Z.eqb_neq c 34) N), (proj2 (Z.eqb_neq c 92) M). exact A.
Qed.
Lemma leads_escape : forall e s r b, leads In_ b s r -> leads In_ b (92 :: e :: s) r.
Proof. intros e s r b (p & -> & A). exists (92 :: e :: p). split; auto. Qed.

Lemma hex_plain : forall c x, hex_digit c = Some x -> c <> 34 /\ c <> 92.
Proof. intros c x H. split; intros ->; vm_compute in H; discriminate H. Qed.
Lemma hex4_plain : forall a b c d u, hex4 a b c d = Some u -> forall s r st, leads In_ st s r -> leads In_ st (a :: b :: c :: d :: s) r.
Proof.
  intros a b c d u H s r st L. unfold hex4 in H. destruct (hex_digit a) eqn:A; [|discriminate H]. destruct (hex_digit b) eqn:B; [|discriminate H].
  destruct (hex_digit c) eqn:C; [|discriminate H]. destruct (hex_digit d) eqn:D; [|discriminate H].
  apply hex_plain in A. apply hex_plain in B. apply hex_plain in C. apply hex_plain in D. repeat (apply leads_in; [tauto|tauto|]). exact L.
Qed.
Lemma prepend_some : forall x o y r, prepend x o = Some (y, r) -> exists y', o = Some (y', r).
Proof. intros x [[y' r']|] y r H; [|discriminate H]. injection H as _ <-. eauto. Qed.

Lemma string_body_leads : forall n s x r, (List.length s <= n)%nat -> string_body s = Some (x, r) -> leads In_ Out s r.
Proof.
  induction n as [|n IH]; intros s x r L H; (destruct s as [|c s]; [discriminate H|]); [cbn in L; lia|]. cbn [List.length] in L. cbn [string_body] in H.
  destruct (Z.eqb_spec c 34).
  { injection H as <- <-. subst. exists [34]. auto. }
  destruct (Z.eqb_spec c 92).
  - subst. destruct s as [|e s]; [discriminate H|]. cbn [List.length] in L. apply leads_escape. destruct (e =? 117).
    + destruct s as [|h1 [|h2 [|h3 [|h4 s]]]]; try discriminate H. destruct (hex4 h1 h2 h3 h4) as [u|] eqn:HX; [|discriminate H].
      apply (hex4_plain _ _ _ _ _ HX). cbn [List.length] in L. destruct (_ && _) in H.
      * destruct s as [|b [|u' [|l1 [|l2 [|l3 [|l4 s]]]]]]; try discriminate H. destruct ((b =? 92) && (u' =? 117)) eqn:BU; [|discriminate H].
        destruct (hex4 l1 l2 l3 l4) as [v|] eqn:HV; [|discriminate H]. destruct (_ && _) in H; [|discriminate H].
        apply prepend_some in H as (y' & H). apply andb_true_iff in BU as [B _]. apply Z.eqb_eq in B. subst b. apply leads_escape.
        apply (hex4_plain _ _ _ _ _ HV). cbn [List.length] in L. eapply IH; [|exact H]. lia.
      * destruct (_ && _) in H; [discriminate H|]. apply prepend_some in H as (y' & H). eapply IH; [|exact H]. lia.
    + destruct (short_escape e); [|discriminate H]. apply prepend_some in H as (y' & H). eapply IH; [|exact H]. lia.
  - destruct (c <? 32); [discriminate H|]. apply prepend_some in H as (y' & H). apply leads_in; auto. eapply IH; [|exact H]. lia.
Qed.

Lemma json_string_leads : forall s x r, json_string s = Some (x, r) -> leads Out Out s r.
Proof.
  intros [|c s] x r H; [discriminate H|]. cbn [json_string] in H. destruct (Z.eqb_spec c 34); [|discriminate H]. subst.
  destruct (string_body_leads _ _ _ _ (le_n _) H) as (p & -> & A). exists (34 :: p). split; auto.
Qed.

Lemma skip_ws_leads : forall s, leads Out Out s (skip_ws s).
Proof.
  induction s as [|c s IH]; [apply leads_refl|]. cbn [skip_ws]. destruct (is_ws c) eqn:W; [|apply leads_refl]. apply leads_out; auto.
  - unfold outside. now rewrite W.
  - intros ->. discriminate W.
Qed.

Lemma digit_out : forall c, is_digit c = true -> outside c = true /\ c <> 34.
Proof. intros c H. split; [unfold outside, digitish; now rewrite H, !orb_true_r|]. intros ->. discriminate H. Qed.
Lemma out_of : forall c l, forallb outside l = true -> existsb (Z.eqb c) l = true -> outside c = true.
Proof.
  intros c l F H. apply existsb_exists in H as (x & I & E). apply Z.eqb_eq in E. subst. rewrite forallb_forall in F. auto.
Qed.

Lemma strip_leads : forall p s r, Forall (fun c => outside c = true /\ c <> 34) p -> strip_prefix p s = Some r -> leads Out Out s r.
Proof.
  induction p as [|a p IH]; intros s r F H.
  - injection H as ->. apply leads_refl.
  - destruct s as [|b s]; [discriminate H|]. cbn [strip_prefix] in H. destruct (Z.eqb_spec a b); [subst|discriminate H].
    inversion F as [|? ? [A B] F']; subst. apply leads_out; auto.
Qed.

Lemma digits_leads : forall s d r, span_digits s = (d, r) -> leads Out Out s r.
Proof.
  induction s as [|c s IH]; intros d r H; cbn [span_digits] in H.
  - injection H as _ <-. apply leads_refl.
  - destruct (is_digit c) eqn:D; [|injection H as _ <-; apply leads_refl]. destruct (span_digits s) as [d' r'] eqn:E. injection H as _ <-.
    destruct (digit_out c D). apply leads_out; auto. eapply IH; reflexivity.
Qed.

Lemma number_leads : forall s x r, lex_number s = Some (x, r) -> leads Out Out s r.
Proof.
  intros s x r H. unfold lex_number in H. destruct (lex_minus s) as [m r1] eqn:M. destruct (lex_int r1) as [[i r2]|] eqn:I; [|discriminate H]. cbn [obind] in H.
  destruct (lex_frac r2) as [[f r3]|] eqn:F; [|discriminate H]. cbn [obind] in H. destruct (lex_exp r3) as [[e r4]|] eqn:E; [|discriminate H].
  cbn [obind] in H. injection H as _ <-.
  assert (A1 : leads Out Out s r1).
  { unfold lex_minus in M. destruct s as [|c s]; [injection M as _ <-; apply leads_refl|]. destruct (Z.eqb_spec c 45); injection M as _ <-; [subst|apply leads_refl].
    apply leads_out; [reflexivity|lia|apply leads_refl]. }
  assert (A2 : leads Out Out r1 r2).
  { unfold lex_int in I. destruct r1 as [|c r1]; [discriminate I|]. destruct (Z.eqb_spec c 48).
    - injection I as _ <-. subst. apply leads_out; [reflexivity|lia|apply leads_refl].
    - destruct (is_digit c); [|discriminate I]. injection I as I. eapply digits_leads. exact I. }
  assert (A3 : leads Out Out r2 r3).
  { unfold lex_frac in F. destruct r2 as [|c r2]; [injection F as _ <-; apply leads_refl|]. destruct (Z.eqb_spec c 46); [|injection F as _ <-; apply leads_refl].
    destruct (span_digits r2) as [[|d ds] r'] eqn:D; [discriminate F|]. injection F as _ <-. subst. apply leads_out; [reflexivity|lia|]. eapply digits_leads. exact D. }
  assert (A4 : leads Out Out r3 r4).
  { unfold lex_exp in E. destruct r3 as [|c r3]; [injection E as _ <-; apply leads_refl|]. destruct ((c =? 101) || (c =? 69)) eqn:C; [|injection E as _ <-; apply leads_refl].
    assert (CO : outside c = true /\ c <> 34).
    { apply orb_true_iff in C as [C|C]; apply Z.eqb_eq in C; subst; split; (reflexivity || lia). }
    apply leads_out; [tauto|tauto|]. destruct r3 as [|d r3].
    - cbn in E. discriminate E.
    - destruct ((d =? 43) || (d =? 45)) eqn:SG.
      + assert (DO : outside d = true /\ d <> 34).
        { apply orb_true_iff in SG as [SG|SG]; apply Z.eqb_eq in SG; subst; split; (reflexivity || lia). }
        apply leads_out; [tauto|tauto|]. destruct (span_digits r3) as [[|d' ds] r'] eqn:D; [discriminate E|]. injection E as _ <-. eapply digits_leads. exact D.
      + destruct (span_digits (d :: r3)) as [[|d' ds] r'] eqn:D; [discriminate E|]. injection E as _ <-. eapply digits_leads. exact D. }
  eapply leads_trans; [exact A1|]. eapply leads_trans; [exact A2|]. eapply leads_trans; [exact A3|exact A4].
Qed.

Ltac outc := apply leads_out; [reflexivity|lia|].
Ltac lits := cbn; repeat (apply Forall_cons; [split; [reflexivity|lia]|]); apply Forall_nil.

Lemma reader_leads : forall n,
  (forall s j r, value n s = Some (j, r) -> leads Out Out s r) /\
  (forall s l r, elements n s = Some (l, r) -> leads Out Out s r) /\
  (forall s l r, members n s = Some (l, r) -> leads Out Out s r).
Proof.
  induction n as [|n (IV & IE & IM)]; [repeat split; intros; discriminate|]. repeat split.
  - intros s j r H. cbn [value] in H. eapply leads_trans; [apply skip_ws_leads|]. destruct (skip_ws s) as [|c s1]; [discriminate H|].
    destruct (Z.eqb_spec c 110); [destruct (strip_prefix (bs "ull") s1) eqn:P; [|discriminate H]; injection H as _ <-; subst; outc; eapply strip_leads; [|exact P]; lits|].
    destruct (Z.eqb_spec c 116); [destruct (strip_prefix (bs "rue") s1) eqn:P; [|discriminate H]; injection H as _ <-; subst; outc; eapply strip_leads; [|exact P]; lits|].
    destruct (Z.eqb_spec c 102); [destruct (strip_prefix (bs "alse") s1) eqn:P; [|discriminate H]; injection H as _ <-; subst; outc; eapply strip_leads; [|exact P]; lits|].
    destruct (Z.eqb_spec c 34); [destruct (json_string (c :: s1)) as [[y r']|] eqn:P; [|discriminate H]; injection H as _ <-; eapply json_string_leads; exact P|].
    destruct (Z.eqb_spec c 91).
    { subst. outc. destruct (skip_ws s1) as [|d s2] eqn:W; [discriminate H|]. destruct (Z.eqb_spec d 93).
      - injection H as _ <-. subst. eapply leads_trans; [apply skip_ws_leads|]. rewrite W. outc. apply leads_refl.
      - destruct (elements n s1) as [[l r']|] eqn:P; [|discriminate H]. injection H as _ <-. eapply IE. exact P. }
    destruct (Z.eqb_spec c 123).
    { subst. outc. destruct (skip_ws s1) as [|d s2] eqn:W; [discriminate H|]. destruct (Z.eqb_spec d 125).
      - injection H as _ <-. subst. eapply leads_trans; [apply skip_ws_leads|]. rewrite W. outc. apply leads_refl.
      - destruct (members n s1) as [[l r']|] eqn:P; [|discriminate H]. injection H as _ <-. eapply IM. exact P. }
    destruct (lex_number (c :: s1)) as [[x r']|] eqn:P; [|discriminate H]. injection H as _ <-. eapply number_leads. exact P.
  - intros s l r H. cbn [elements] in H. destruct (value n s) as [[v s1]|] eqn:V; [|discriminate H]. cbn [obind] in H.
    eapply leads_trans; [eapply IV; exact V|]. eapply leads_trans; [apply skip_ws_leads|]. destruct (skip_ws s1) as [|c s2]; [discriminate H|].
    destruct (Z.eqb_spec c 93); [injection H as _ <-; subst; outc; apply leads_refl|]. destruct (Z.eqb_spec c 44); [|discriminate H].
    destruct (elements n s2) as [[l' r']|] eqn:P; [|discriminate H]. injection H as _ <-. subst. outc. eapply IE. exact P.
  - intros s l r H. cbn [members] in H. destruct (json_string (skip_ws s)) as [[k s1]|] eqn:K; [|discriminate H]. cbn [obind] in H.
    eapply leads_trans; [apply skip_ws_leads|]. eapply leads_trans; [eapply json_string_leads; exact K|]. eapply leads_trans; [apply skip_ws_leads|].
    destruct (skip_ws s1) as [|c s2]; [discriminate H|]. destruct (Z.eqb_spec c 58); [|discriminate H]. subst. outc.
    destruct (value n s2) as [[v s3]|] eqn:V; [|discriminate H]. cbn [obind] in H. eapply leads_trans; [eapply IV; exact V|].
    eapply leads_trans; [apply skip_ws_leads|]. destruct (skip_ws s3) as [|c s4]; [discriminate H|].
    destruct (Z.eqb_spec c 125); [injection H as _ <-; subst; outc; apply leads_refl|]. destruct (Z.eqb_spec c 44); [|discriminate H].
    destruct (members n s4) as [[l' r']|] eqn:P; [|discriminate H]. injection H as _ <-. subst. outc. eapply IM. exact P.
Qed.

(** A JSON text scans to its end, outside of string literals. *)
Lemma parses_scan : forall text j, parses text j -> scan Out text = Some Out.
Proof.
  intros text j (n & r & V & W). apply (proj1 (reader_leads n)) in V as (p & -> & A). rewrite (scan_app _ _ _ _ A).
  destruct (skip_ws_leads r) as (q & Q & B). rewrite W, app_nil_r in Q. subst. exact B.
Qed.
