From Verif Require Import Base DecimalSpec JsonIntModel JsonIntProofs JsonIntProps JsonStrModel JsonStrSpec JsonStrProofs JsonStrProps JsonSpec JsonCompSpec JsonCompProofs DumpModel DumpSpec DumpProofs DumpShowSpec.
From Coq Require Import Permutation.
Open Scope Z_scope.
Open Scope list_scope.

Ltac texts := unfold ptrObj, obj, arr, member; cbn [map sep fst snd]; literals; repeat first [rewrite <- app_assoc | rewrite app_nil_r | progress cbn [app]]; reflexivity.
Ltac some E v := match type of E with obind ?a _ = Some _ => destruct a as [v|] eqn:?; cbn [obind] in E; [|discriminate E] end.
Ltac keys := repeat (constructor; [apply plain_lit; reflexivity|]); constructor.

Lemma textsOf_app x a y b : textsOf x a -> textsOf y b -> textsOf (x ++ y) (a ++ b).
Proof. apply Forall2_app. Qed.
Lemma textsOf_nil : textsOf [] [].
Proof. constructor. Qed.
Lemma textsOf_cons s p text j x a : addressIs s p -> valueText text j -> textsOf x a -> textsOf ((s, text) :: x) ((s, j) :: a).
Proof. intros [A _] V T. constructor; [split; [reflexivity|split; [exact A|exact V]]|exact T]. Qed.
Lemma address_of p s : 0 <= p <= 18446744073709551615 -> ptrToStr p = Some s -> addressIs s p.
Proof.
  intros R P. split; [eapply ptr_text; eassumption|]. intros L. unfold ptrToStr in P. destruct (WriteUint64_ok [] p ltac:(lia)) as (t & W & C). rewrite W in P. cbn [app] in P. apply some_eq in P. subst t. exact C.
Qed.
Lemma address_zero s : ptrToStr 0 = Some s -> addressIs s 0.
Proof. apply address_of. lia. Qed.
Lemma ptrJson_text s p : addressIs s p -> valueText (ptrObj s) (ptrJson s).
Proof. intros [A _]. apply ptrObj_text. exact A. Qed.

(** Numbers *)
Lemma int_num space v out : - 2 ^ 63 <= v < 2 ^ 63 -> WriteInt64 space v = Some out -> exists t, out = space ++ t /\ numeral t v /\ valueText t (JNum t).
Proof. intros R E. destruct (C01_int64 space v R) as (t & X & C). rewrite X in E. apply some_eq in E. subst out. exists t. split; [reflexivity|]. split; [exact C|eapply num_valueText; exact C]. Qed.
Lemma uint8_num space v out : 0 <= v < 256 -> WriteUint8 space v = Some out -> exists t, out = space ++ t /\ numeral t v /\ valueText t (JNum t).
Proof. intros R E. destruct (C01_uint8 space v R) as (t & X & C). rewrite X in E. apply some_eq in E. subst out. exists t. split; [reflexivity|]. split; [exact C|eapply num_valueText; exact C]. Qed.
Lemma uint16_num space v out : 0 <= v < 2 ^ 16 -> WriteUint16 space v = Some out -> exists t, out = space ++ t /\ numeral t v /\ valueText t (JNum t).
Proof. intros R E. destruct (C01_uint16 space v R) as (t & X & C). rewrite X in E. apply some_eq in E. subst out. exists t. split; [reflexivity|]. split; [exact C|eapply num_valueText; exact C]. Qed.
Lemma uint32_num space v out : 0 <= v < 2 ^ 32 -> WriteUint32 space v = Some out -> exists t, out = space ++ t /\ (v < 10 ^ 9 -> numeral t v) /\ valueText t (JNum t).
Proof.
  intros R E. destruct (Z_lt_ge_dec v (10 ^ 9)) as [L|L].
  - destruct (proj2 (C02_uint32_exact_iff space v R) L) as (t & X & C). rewrite X in E. apply some_eq in E. subst out. exists t. split; [reflexivity|]. split; [intros _; exact C|eapply num_valueText; exact C].
  - destruct (uint32_out space v out R E) as (t & -> & V). exists t. split; [reflexivity|]. split; [lia|exact V].
Qed.
Lemma uint64_num space v out : 0 <= v < 10 ^ 19 -> WriteUint64 space v = Some out -> exists t, out = space ++ t /\ numeral t v /\ valueText t (JNum t).
Proof. intros R E. destruct (proj2 (C03_uint64_exact_iff space v ltac:(lia)) ltac:(lia)) as (t & X & C). rewrite X in E. apply some_eq in E. subst out. exists t. split; [reflexivity|]. split; [exact C|eapply num_valueText; exact C]. Qed.

Section Mem.
  Variable byteAt : Z -> option Z.
  Hypothesis byte_range : forall p b, byteAt p = Some b -> 0 <= b < 256.

  Lemma leBytes_cons n v : leBytes (S n) v = v mod 256 :: leBytes n (v / 256).
  Proof.
    unfold leBytes. cbn [seq map]. f_equal; [change (256 ^ Z.of_nat 0) with 1; rewrite Z.div_1_r; reflexivity|]. rewrite <- seq_shift, map_map. apply map_ext. intros i.
    rewrite Nat2Z.inj_succ, Z.pow_succ_r by lia. rewrite Z.div_div by (try apply Z.pow_pos_nonneg; lia). reflexivity.
  Qed.
  Lemma le_stored n : forall p v, le byteAt n p = Some v -> stored byteAt p (leBytes n v).
  Proof.
    induction n as [|n IH]; intros p v E; cbn [le] in E; [intros [|i] b H; discriminate H|]. some E b. some E r. apply some_eq in E. subst v. rewrite leBytes_cons.
    pose proof (byte_range _ _ Heqo) as R. replace (b + 256 * r) with (b + r * 256) by lia. rewrite Z.mod_add, Z.div_add by lia. rewrite (Z.mod_small b), (Z.div_small b) by lia. cbn [Z.add].
    intros [|i] c H; cbn [nth_error] in H; [apply some_eq in H; subst c; rewrite Z.add_0_r; exact Heqo|]. apply (IH _ _ Heqo0) in H. replace (p + Z.of_nat (S i)) with (p + 1 + Z.of_nat i) by lia. exact H.
  Qed.
  Lemma le_unsigned n p v : le byteAt n p = Some v -> unsignedAt byteAt n p v.
  Proof. intros E. split; [apply le_stored; exact E|eapply le_range; eassumption]. Qed.
  Lemma ptr_unsigned p v : ptrAt byteAt p = Some v -> unsignedAt byteAt 8 p v.
  Proof. apply le_unsigned. Qed.
  Lemma leBytes_wrap n v k : leBytes n (v + k * 256 ^ Z.of_nat n) = leBytes n v.
  Proof.
    revert v. induction n as [|n IH]; intros v; [reflexivity|]. rewrite !leBytes_cons. rewrite Nat2Z.inj_succ, Z.pow_succ_r by lia.
    replace (v + k * (256 * 256 ^ Z.of_nat n)) with (v + (k * 256 ^ Z.of_nat n) * 256) by lia. rewrite Z.mod_add, Z.div_add by lia. rewrite IH. reflexivity.
  Qed.
  Lemma int_signed p v : intAt byteAt p = Some v -> signedAt byteAt p v.
  Proof.
    intros E. split; [|eapply int_range_at; exact E]. unfold intAt in E. some E x. apply some_eq in E. subst v. pose proof (le_range _ byte_range _ _ _ Heqo) as R. apply le_stored in Heqo. change (256 ^ Z.of_nat 8) with (2 ^ 64) in R.
    unfold wrap_signed. rewrite (Z.mod_small x) by exact R. change (2 ^ (64 - 1)) with (2 ^ 63). destruct (x <? 2 ^ 63); [exact Heqo|]. replace (x - 2 ^ 64) with (x + (- 1) * 256 ^ Z.of_nat 8) by (change (256 ^ Z.of_nat 8) with (2 ^ 64); lia).
    rewrite leBytes_wrap. exact Heqo.
  Qed.
  Lemma bytes_stored n : forall p s, bytesAt byteAt n p = Some s -> stored byteAt p s /\ List.length s = n.
  Proof.
    induction n as [|n IH]; intros p s E; cbn [bytesAt] in E; [apply some_eq in E; subst s; split; [intros [|i] b H; discriminate H|reflexivity]|]. some E b. some E r. apply some_eq in E. subst s.
    destruct (IH _ _ Heqo0) as [S L]. split; [|cbn; congruence]. intros [|i] c H; cbn [nth_error] in H; [apply some_eq in H; subst c; rewrite Z.add_0_r; exact Heqo|].
    apply S in H. replace (p + Z.of_nat (Datatypes.S i)) with (p + 1 + Z.of_nat i) by lia. exact H.
  Qed.

  (** ** Values *)
  Lemma string_shows : shows_as (stringEncoder byteAt) (stringShown byteAt).
  Proof.
    intros p m space m' out E. unfold stringEncoder in E. some E data. some E len. some E ps. some E s1. some E s. apply some_pair in E. destruct E as [<- <-].
    pose proof (bytes_range _ byte_range _ _ _ Heqo3) as Bs. destruct (bytes_stored _ _ _ Heqo3) as [St L]. pose proof (ptr_range _ byte_range _ _ Heqo) as Rd. pose proof (address_of _ _ Rd Heqo1) as A.
    destruct (int_num _ _ _ (int_range_at _ _ _ Heqo0) Heqo2) as (tl & -> & Nl & Vl).
    assert (W : exists t u, WriteString [] s = t /\ valueText t (JStr u) /\ ((~ exists q c, s = q ++ [c] /\ Forall (fun b => ~ must_escape b) q /\ must_escape c) -> u = s)).
    { destruct (WriteString_decodes [] s Bs) as (t & u & W & D). exists t, u. split; [exact W|]. destruct (reads_str t u (fun r => proj1 (D r))) as [Rt Sta]. split; [split; [exact Sta|eauto]|].
      intros N. destruct (good_string_text s (conj Bs N)) as (t' & W' & J). specialize (W' []). cbn [app] in W, W'. rewrite W in W'. subst t'. pose proof (proj1 (D [])) as D0. specialize (J []). congruence. }
    destruct W as (t & u & W & V & U). pose (l := [(bs "data", ptrObj ps); (bs "len", tl)]).
    exists (obj l), (JObj [(bs "data", ptrJson ps); (bs "len", JNum tl)]), (if data =? 0 then [] else [(ps, t)]), (if data =? 0 then [] else [(ps, JStr u)]). split; [unfold l; texts|]. split.
    { apply (obj_text l [ptrJson ps; JNum tl]); [unfold l; keys|]. constructor; [eapply ptrJson_text; exact A|]. constructor; [exact Vl|constructor]. }
    split; [rewrite W; destruct (data =? 0); reflexivity|]. split; [destruct (data =? 0); [constructor|eapply textsOf_cons; [exact A|exact V|constructor]]|].
    exists data, len, s, u, ps, tl. split; [apply ptr_unsigned; exact Heqo|]. split; [apply int_signed; exact Heqo0|]. split; [exact St|]. split; [exact L|]. split; [exact U|]. split; [exact A|]. split; [exact Nl|]. split; reflexivity.
  Qed.
  Lemma pointer_shows elem R : shows_as elem R -> (forall p, byteAt p <> None -> 0 <= p <= 18446744073709551615) -> shows_as (pointerEncoder byteAt elem) (pointerShown byteAt R).
  Proof.
    intros G Addr p m space m' out E. unfold pointerEncoder in E. some E ps. some E q. some E r. destruct r as [m1 text]. apply some_pair in E. destruct E as [<- <-].
    destruct (G _ _ _ _ _ Heqo1) as (t & j & x & a & T & V & -> & X & Rq). cbn [app] in T. subst t.
    assert (A : addressIs ps p). { eapply address_of; [|eassumption]. apply Addr. unfold ptrAt in Heqo0. cbn [le] in Heqo0. destruct (byteAt p); [discriminate|discriminate Heqo0]. }
    exists (ptrObj ps), (ptrJson ps), ((ps, text) :: x), ((ps, j) :: a). split; [texts|]. split; [eapply ptrJson_text; exact A|]. split; [reflexivity|]. split; [eapply textsOf_cons; eassumption|].
    exists q, ps, j, a. split; [apply ptr_unsigned; exact Heqo0|]. split; [exact Rq|]. split; [exact A|]. split; reflexivity.
  Qed.
  Lemma data_shows elem R size (G : shows_as elem R) n : forall first m space offset m' out, dataLoop elem size n first m space offset = Some (m', out) ->
    exists ts js x a, out = space ++ sep first ts /\ Forall2 valueText ts js /\ m' = x ++ m /\ textsOf x a /\ row R size n offset js a.
  Proof.
    induction n as [|n IH]; intros first m space offset m' out E; cbn [dataLoop] in E.
    - apply some_pair in E. destruct E as [<- <-]. exists [], [], [], []. cbn [sep]. rewrite app_nil_r. split; [reflexivity|]. split; [constructor|]. split; [reflexivity|]. split; constructor.
    - some E r. destruct r as [m1 o1]. destruct (G _ _ _ _ _ Heqo) as (t & j & x1 & a1 & -> & V & -> & X1 & R1).
      destruct (IH _ _ _ _ _ _ E) as (ts & js & x2 & a2 & -> & F & -> & X2 & R2). exists (t :: ts), (j :: js), (x2 ++ x1), (a2 ++ a1). cbn [sep]. split; [destruct first; cbn [app bs]; rewrite <- ?app_assoc; reflexivity|].
      split; [constructor; assumption|]. split; [apply app_assoc|]. split; [apply textsOf_app; assumption|]. constructor; assumption.
  Qed.
  Lemma array_shows elem R size n : shows_as elem R -> shows_as (arrayEncoder elem size n) (arrayShown R size n).
  Proof.
    intros G p m space m' out E. unfold arrayEncoder in E. some E r. destruct r as [m1 o1]. apply some_pair in E. destruct E as [<- <-]. destruct (data_shows _ _ _ G _ _ _ _ _ _ _ Heqo) as (ts & js & x & a & -> & F & -> & X & Rw).
    exists (arr ts), (JArr js), x, a. split; [unfold arr; cbn [bs app]; rewrite <- !app_assoc; reflexivity|]. split; [apply arr_text; exact F|]. split; [reflexivity|]. split; [exact X|]. exists js. split; [exact Rw|reflexivity].
  Qed.
  Lemma slice_shows elem R size : shows_as elem R -> shows_as (sliceEncoder byteAt elem size) (sliceShown byteAt R size).
  Proof.
    intros G p m space m' out E. unfold sliceEncoder in E. some E data. some E len. some E cap. some E ps. some E s1. some E s2. some E r. destruct r as [m1 text]. apply some_pair in E. destruct E as [<- <-].
    unfold encodeData in Heqo5. rewrite Heqo, Heqo0 in Heqo5. cbn [obind] in Heqo5. some Heqo5 r. destruct r as [m2 o2]. apply some_pair in Heqo5. destruct Heqo5 as [<- <-].
    destruct (data_shows _ _ _ G _ _ _ _ _ _ _ Heqo6) as (ts & js & x & a & -> & F & -> & X & Rw). pose proof (ptr_range _ byte_range _ _ Heqo) as Rd. pose proof (address_of _ _ Rd Heqo2) as A.
    destruct (int_num _ _ _ (int_range_at _ _ _ Heqo0) Heqo3) as (tl & -> & Nl & Vl). destruct (int_num _ _ _ (int_range_at _ _ _ Heqo1) Heqo4) as (tc & -> & Nc & Vc).
    pose (l := [(bs "data", ptrObj ps); (bs "len", tl); (bs "cap", tc)]).
    exists (obj l), (JObj [(bs "data", ptrJson ps); (bs "len", JNum tl); (bs "cap", JNum tc)]), (if data =? 0 then x else (ps, arr ts) :: x), (if data =? 0 then a else (ps, JArr js) :: a). split; [unfold l; texts|]. split.
    { apply (obj_text l [ptrJson ps; JNum tl; JNum tc]); [unfold l; keys|]. constructor; [eapply ptrJson_text; exact A|]. constructor; [exact Vl|]. constructor; [exact Vc|constructor]. }
    split. { destruct (data =? 0); [reflexivity|]. unfold put, arr. cbn [bs app]. rewrite <- ?app_assoc. reflexivity. }
    split. { destruct (data =? 0); [exact X|]. eapply textsOf_cons; [exact A|apply arr_text; exact F|exact X]. }
    exists data, len, cap, ps, tl, tc, js, a. split; [apply ptr_unsigned; exact Heqo|]. split; [apply int_signed; exact Heqo0|]. split; [apply int_signed; exact Heqo1|]. split; [exact Rw|]. split; [exact A|]. split; [exact Nl|]. split; [exact Nc|]. split; reflexivity.
  Qed.
  Lemma struct_loop_shows R rec fs : (forall t e, rec t = Some e -> shows_as e (R t)) -> (forall name offset u, In (name, offset, u) fs -> plainKey name) -> forall l, fieldEncoders rec fs = Some l ->
    forall first m space p m' out, structLoop l first m space p = Some (m', out) ->
    exists ks js x a, out = space ++ sep first (map member ks) /\ Forall (fun q => plainKey (fst q)) ks /\ Forall2 valueText (map snd ks) js /\ m' = x ++ m /\ textsOf x a /\ fieldsShown R p fs (combine (map fst ks) js) a.
  Proof.
    intros HR. induction fs as [|[[name offset] t] fs IH]; intros N l L first m space p m' out E; cbn [fieldEncoders] in L.
    - apply some_eq in L. subst l. cbn [structLoop] in E. apply some_pair in E. destruct E as [<- <-]. exists [], [], [], []. split; [cbn; rewrite app_nil_r; reflexivity|]. split; [constructor|]. split; [constructor|]. split; [reflexivity|]. split; constructor.
    - assert (N' : forall name offset u, In (name, offset, u) fs -> plainKey name) by (intros; eapply N; right; eassumption). destruct name as [|c name].
      + destruct (IH N' l L _ _ _ _ _ _ E) as (ks & js & x & a & H1 & H2 & H3 & H4 & H5 & H6). exists ks, js, x, a. split; [exact H1|]. split; [exact H2|]. split; [exact H3|]. split; [exact H4|]. split; [exact H5|]. constructor. exact H6.
      + some L e. some L l'. apply some_eq in L. subst l. cbn [structLoop] in E. some E r. destruct r as [m1 o1]. destruct (HR _ _ Heqo _ _ _ _ _ Heqo1) as (tx & j & x1 & a1 & -> & V & -> & X1 & R1).
        destruct (IH N' l' eq_refl _ _ _ _ _ _ E) as (ks & js & x2 & a2 & -> & K & F & -> & X2 & R2). exists ((c :: name, tx) :: ks), (j :: js), (x2 ++ x1), (a2 ++ a1).
        split. { destruct first; unfold member; cbn [map sep fst snd]; literals; cbn [app]; rewrite <- ?app_assoc; cbn [app]; rewrite <- ?app_assoc; cbn [app]; reflexivity. }
        split; [constructor; [eapply N; left; reflexivity|exact K]|]. split; [constructor; assumption|]. split; [apply app_assoc|]. split; [apply textsOf_app; assumption|]. cbn [map combine fst]. constructor; [discriminate|exact R1|exact R2].
  Qed.
  Lemma struct_shows R rec fs l : (forall t e, rec t = Some e -> shows_as e (R t)) -> (forall name offset u, In (name, offset, u) fs -> plainKey name) -> fieldEncoders rec fs = Some l -> shows_as (structEncoder l) (structShown R fs).
  Proof.
    intros HR N L p m space m' out E. unfold structEncoder in E. some E r. destruct r as [m1 o1]. apply some_pair in E. destruct E as [<- <-].
    destruct (struct_loop_shows _ _ _ HR N _ L _ _ _ _ _ _ Heqo) as (ks & js & x & a & -> & K & F & -> & X & Rf). exists (obj ks), (JObj (combine (map fst ks) js)), x, a.
    split; [unfold obj; literals; cbn [app]; rewrite <- !app_assoc; reflexivity|]. split; [apply obj_text; assumption|]. split; [reflexivity|]. split; [exact X|]. eexists. split; [exact Rf|reflexivity].
  Qed.

  (** ** Maps *)
  Lemma tophash_shows n : forall first space p out, tophashLoop byteAt n first space p = Some out -> exists ts js, out = space ++ sep first ts /\ Forall2 valueText ts js /\ row (byteShown byteAt) 1 n p js [].
  Proof.
    induction n as [|n IH]; intros first space p out E; cbn [tophashLoop] in E; [apply some_eq in E; subst out; exists [], []; cbn [sep]; rewrite app_nil_r; split; [reflexivity|]; split; constructor|].
    some E b. some E s1. destruct (uint8_num _ _ _ (byte_range _ _ Heqo) Heqo0) as (t & -> & N & V). destruct (IH _ _ _ _ E) as (ts & js & -> & F & R). exists (t :: ts), (JNum t :: js).
    split; [cbn [sep]; destruct first; literals; cbn [app]; rewrite <- ?app_assoc; reflexivity|]. split; [constructor; assumption|]. change (@nil (bytes * json)) with (@nil (bytes * json) ++ []). constructor; [exists b, t; auto|exact R].
  Qed.
  Section Map.
    Variable keysEncoder elemsEncoder : enc.
    Variable keysS elemsS : showing.
    Variable keySize elemSize : Z.
    Hypothesis keys_shows : shows_as keysEncoder keysS.
    Hypothesis elems_shows : shows_as elemsEncoder elemsS.
    Notation bucket := (bucketShown byteAt keysS elemsS keySize elemSize).
    Lemma bucket_shows fuel : shows_as (encodeBucket byteAt keysEncoder elemsEncoder keySize elemSize fuel) bucket.
    Proof.
      induction fuel as [|fuel IH]; intros p m space m' out E; cbn [encodeBucket] in E; [discriminate|]. some E s1. some E r. destruct r as [m1 s2]. some E r. destruct r as [m2 s3]. some E op. some E ops.
      destruct (tophash_shows _ _ _ _ _ Heqo) as (ts & hs & -> & F & Rh). destruct (keys_shows _ _ _ _ _ Heqo0) as (tk & jk & x1 & a1 & -> & Vk & -> & X1 & Rk).
      destruct (elems_shows _ _ _ _ _ Heqo1) as (te & je & x2 & a2 & -> & Ve & -> & X2 & Re). pose proof (ptr_range _ byte_range _ _ Heqo2) as Rq. pose proof (address_of _ _ Rq Heqo3) as A. apply ptr_unsigned in Heqo2.
      assert (St : exists x a, m' = x ++ x2 ++ x1 ++ m /\ textsOf x a /\ ((op = 0 /\ a = []) \/ (op <> 0 /\ exists j b, bucket op j b /\ a = (ops, j) :: b)) /\
        out = ((((space ++ bs "{""tophash"":") ++ bs "[") ++ sep true ts) ++ bs "]" ++ bs ",""keys"":") ++ tk ++ bs ",""elems"":" ++ te ++ bs ",""overflow"":{""__ptr__"":""" ++ ops ++ bs """}}").
      { destruct (op =? 0) eqn:Z0.
        - apply some_pair in E. destruct E as [<- <-]. exists [], []. split; [reflexivity|]. split; [constructor|]. split; [left; split; [lia|reflexivity]|]. rewrite <- !app_assoc. reflexivity.
        - some E r. destruct r as [m3 ov]. apply some_pair in E. destruct E as [<- <-]. destruct (IH _ _ _ _ _ Heqo4) as (t & j & x & a & T & V & -> & X & Rb). cbn [app] in T. subst t.
          exists ((ops, ov) :: x), ((ops, j) :: a). split; [reflexivity|]. split; [eapply textsOf_cons; eassumption|]. split; [right; split; [lia|]; exists j, a; auto|]. rewrite <- !app_assoc. reflexivity. }
      destruct St as (x & a & -> & X & Ov & ->). pose (l := [(bs "tophash", arr ts); (bs "keys", tk); (bs "elems", te); (bs "overflow", ptrObj ops)]).
      exists (obj l), (JObj [(bs "tophash", JArr hs); (bs "keys", jk); (bs "elems", je); (bs "overflow", ptrJson ops)]), (x ++ x2 ++ x1), (a ++ a2 ++ a1). split; [unfold l; texts|]. split.
      { apply (obj_text l [JArr hs; jk; je; ptrJson ops]); [unfold l; keys|]. constructor; [apply arr_text; exact F|]. constructor; [exact Vk|]. constructor; [exact Ve|]. constructor; [eapply ptrJson_text; exact A|constructor]. }
      split; [rewrite <- !app_assoc; reflexivity|]. split; [apply textsOf_app; [exact X|apply textsOf_app; assumption]|].
      unfold keysSize, bucketSize, keysSize in *. apply bucket_shown with (q := op); [exact Rh|exact Rk|replace (p + 8 + 8 * keySize) with (p + 8 + keySize * 8) by lia; exact Re| |exact A|exact Ov].
      replace (p + 8 + 8 * keySize + 8 * elemSize) with (p + (8 + keySize * 8 + elemSize * 8 + 8) - 8) by lia. exact Heqo2.
    Qed.
    Lemma buckets_loop_shows fuel n : forall first m space p m' out, bucketsLoop byteAt keysEncoder elemsEncoder keySize elemSize fuel n first m space p = Some (m', out) ->
      exists ts js x a, out = space ++ spaced first ts /\ Forall2 valueText ts js /\ m' = x ++ m /\ textsOf x a /\ row bucket (8 + 8 * keySize + 8 * elemSize + 8) n p js a.
    Proof.
      induction n as [|n IH]; intros first m space p m' out E; cbn [bucketsLoop] in E.
      - apply some_pair in E. destruct E as [<- <-]. exists [], [], [], []. split; [destruct first; cbn; rewrite app_nil_r; reflexivity|]. split; [constructor|]. split; [reflexivity|]. split; constructor.
      - some E r. destruct r as [m1 o1]. destruct (bucket_shows _ _ _ _ _ _ Heqo) as (t & j & x1 & a1 & -> & V & -> & X1 & R1).
        replace (p + bucketSize keySize elemSize) with (p + (8 + 8 * keySize + 8 * elemSize + 8)) in E by (unfold bucketSize, keysSize; lia).
        destruct (IH _ _ _ _ _ _ E) as (ts & js & x2 & a2 & -> & F & -> & X2 & R2). exists (t :: ts), (j :: js), (x2 ++ x1), (a2 ++ a1). rewrite spaced_cons.
        split; [destruct first; rewrite <- ?app_assoc; reflexivity|]. split; [constructor; assumption|]. split; [apply app_assoc|]. split; [apply textsOf_app; assumption|]. constructor; assumption.
    Qed.
    Lemma buckets_shows fuel count : shows_as (encodeBuckets byteAt keysEncoder elemsEncoder keySize elemSize fuel count) (bucketsShown byteAt keysS elemsS keySize elemSize count).
    Proof.
      intros p m space m' out E. unfold encodeBuckets in E. some E r. destruct r as [m1 o1]. apply some_pair in E. destruct E as [<- <-]. destruct (buckets_loop_shows _ _ _ _ _ _ _ _ Heqo) as (ts & js & x & a & -> & F & -> & X & R).
      exists (arr2 ts), (JArr js), x, a. split; [unfold arr2, spaced; literals; rewrite <- !app_assoc; reflexivity|]. split; [apply arr2_text; exact F|]. split; [reflexivity|]. split; [exact X|]. exists js. split; [exact R|reflexivity].
    Qed.
    Lemma bucketPtrs_shows fuel n : forall first m space p m' out, bucketPtrLoop byteAt keysEncoder elemsEncoder keySize elemSize fuel n first m space p = Some (m', out) ->
      exists ts js x a, out = space ++ spaced first ts /\ Forall2 valueText ts js /\ m' = x ++ m /\ textsOf x a /\ row (bucketPtrShown byteAt keysS elemsS keySize elemSize) 8 n p js a.
    Proof.
      induction n as [|n IH]; intros first m space p m' out E; cbn [bucketPtrLoop] in E.
      - apply some_pair in E. destruct E as [<- <-]. exists [], [], [], []. split; [destruct first; cbn; rewrite app_nil_r; reflexivity|]. split; [constructor|]. split; [reflexivity|]. split; constructor.
      - some E ep. some E eps. pose proof (ptr_range _ byte_range _ _ Heqo) as Re. pose proof (address_of _ _ Re Heqo0) as A. apply ptr_unsigned in Heqo.
        assert (St : exists x1 a1 sp, sp = (if first then space else space ++ bs ", ") ++ bs "{""__ptr__"":""" ++ eps ++ bs """}" /\ textsOf x1 a1 /\ led bucket ep eps a1 /\
          bucketPtrLoop byteAt keysEncoder elemsEncoder keySize elemSize fuel n false (x1 ++ m) sp (p + 8) = Some (m', out)).
        { destruct (ep =? 0) eqn:Z0.
          - exists [], []. eexists. split; [reflexivity|]. split; [constructor|]. split; [left; split; [lia|reflexivity]|exact E].
          - some E r. destruct r as [m1 ed]. destruct (bucket_shows _ _ _ _ _ _ Heqo1) as (t & j & x & a & T & V & -> & X & R). cbn [app] in T. subst t. exists ((eps, ed) :: x), ((eps, j) :: a). eexists. split; [reflexivity|].
            split; [eapply textsOf_cons; eassumption|]. split; [right; split; [lia|]; exists j, a; auto|exact E]. }
        clear E. destruct St as (x1 & a1 & sp & -> & X1 & L1 & E). destruct (IH _ _ _ _ _ _ E) as (ts & js & x2 & a2 & -> & F & -> & X2 & R2).
        exists (ptrObj eps :: ts), (ptrJson eps :: js), (x2 ++ x1), (a2 ++ a1). rewrite spaced_cons. split; [destruct first; texts|]. split; [constructor; [eapply ptrJson_text; exact A|exact F]|].
        split; [apply app_assoc|]. split; [apply textsOf_app; assumption|]. constructor; [|exact R2]. exists ep, eps. auto.
    Qed.
    Lemma ptrSlice_shows fuel : shows_as (encodeBucketPtrSlice byteAt keysEncoder elemsEncoder keySize elemSize fuel) (sliceShown byteAt (bucketPtrShown byteAt keysS elemsS keySize elemSize) 8).
    Proof.
      intros p m space m' out E. unfold encodeBucketPtrSlice in E. some E data. some E len. some E cap. some E ps. some E s1. some E s2. some E r. destruct r as [m1 text]. apply some_pair in E. destruct E as [<- <-].
      destruct (bucketPtrs_shows _ _ _ _ _ _ _ _ Heqo5) as (ts & js & x & a & -> & F & -> & X & Rw). pose proof (ptr_range _ byte_range _ _ Heqo) as Rd. pose proof (address_of _ _ Rd Heqo2) as A.
      destruct (int_num _ _ _ (int_range_at _ _ _ Heqo0) Heqo3) as (tl & -> & Nl & Vl). destruct (int_num _ _ _ (int_range_at _ _ _ Heqo1) Heqo4) as (tc & -> & Nc & Vc).
      pose (l := [(bs "data", ptrObj ps); (bs "len", tl); (bs "cap", tc)]).
      exists (obj l), (JObj [(bs "data", ptrJson ps); (bs "len", JNum tl); (bs "cap", JNum tc)]), (if data =? 0 then x else (ps, arr2 ts) :: x), (if data =? 0 then a else (ps, JArr js) :: a). split; [unfold l; texts|]. split.
      { apply (obj_text l [ptrJson ps; JNum tl; JNum tc]); [unfold l; keys|]. constructor; [eapply ptrJson_text; exact A|]. constructor; [exact Vl|]. constructor; [exact Vc|constructor]. }
      split. { destruct (data =? 0); [reflexivity|]. unfold put, arr2, spaced. literals. rewrite <- ?app_assoc. reflexivity. }
      split. { destruct (data =? 0); [exact X|]. eapply textsOf_cons; [exact A|apply arr2_text; exact F|exact X]. }
      exists data, len, cap, ps, tl, tc, js, a. split; [apply ptr_unsigned; exact Heqo|]. split; [apply int_signed; exact Heqo0|]. split; [apply int_signed; exact Heqo1|]. split; [exact Rw|]. split; [exact A|]. split; [exact Nl|]. split; [exact Nc|]. split; reflexivity.
    Qed.
    Lemma follow_shows e R p s m m' : shows_as e R -> addressIs s p -> follow e p s m = Some m' -> exists x a, m' = x ++ m /\ textsOf x a /\ led R p s a.
    Proof.
      intros G A E. unfold follow in E. destruct (p =? 0) eqn:Z0.
      - apply some_eq in E. subst m'. exists [], []. split; [reflexivity|]. split; [constructor|]. left. split; [lia|reflexivity].
      - some E r. destruct r as [m1 text]. apply some_eq in E. subst m'. destruct (G _ _ _ _ _ Heqo) as (t & j & x & a & T & V & -> & X & Rp). cbn [app] in T. subst t.
        exists ((s, text) :: x), ((s, j) :: a). split; [reflexivity|]. split; [eapply textsOf_cons; eassumption|]. right. split; [lia|]. exists j, a. auto.
    Qed.
    Lemma extra_shows fuel : shows_as (encodeExtra byteAt keysEncoder elemsEncoder keySize elemSize fuel) (extraShown byteAt keysS elemsS keySize elemSize).
    Proof.
      intros p m space m' out E. unfold encodeExtra in E. some E o. some E oo. some E no. some E os. some E oos. some E nos. some E m1. some E m2. some E m3. apply some_pair in E. destruct E as [<- <-].
      pose proof (address_of _ _ (ptr_range _ byte_range _ _ Heqo) Heqo2) as A1. pose proof (address_of _ _ (ptr_range _ byte_range _ _ Heqo0) Heqo3) as A2. pose proof (address_of _ _ (ptr_range _ byte_range _ _ Heqo1) Heqo4) as A3.
      destruct (follow_shows _ _ _ _ _ _ (ptrSlice_shows fuel) A1 Heqo5) as (x1 & a1 & -> & X1 & L1). destruct (follow_shows _ _ _ _ _ _ (ptrSlice_shows fuel) A2 Heqo6) as (x2 & a2 & -> & X2 & L2).
      destruct (follow_shows _ _ _ _ _ _ (bucket_shows fuel) A3 Heqo7) as (x3 & a3 & -> & X3 & L3).
      pose (l := [(bs "overflow", ptrObj os); (bs "oldoverflow", ptrObj oos); (bs "nextOverflow", ptrObj nos)]).
      exists (obj l), (JObj [(bs "overflow", ptrJson os); (bs "oldoverflow", ptrJson oos); (bs "nextOverflow", ptrJson nos)]), (x3 ++ x2 ++ x1), (a3 ++ a2 ++ a1). split; [unfold l; texts|]. split.
      { apply (obj_text l [ptrJson os; ptrJson oos; ptrJson nos]); [unfold l; keys|]. repeat (constructor; [eapply ptrJson_text; eassumption|]). constructor. }
      split; [rewrite <- !app_assoc; reflexivity|]. split; [apply textsOf_app; [exact X3|apply textsOf_app; assumption]|].
      exists o, oo, no, os, oos, nos, a1, a2, a3. apply ptr_unsigned in Heqo, Heqo0, Heqo1. repeat (split; [assumption|]). split; reflexivity.
    Qed.
    Lemma count_is B : 0 <= B -> Z.to_nat (bucketsCount B) = Z.to_nat (bucketCount B) /\ Z.to_nat (Z.quot (bucketsCount B) 2) = Z.to_nat (bucketCount B / 2).
    Proof.
      intros H. unfold bucketsCount, bucketCount. destruct (B <? 63) eqn:L.
      - split; [reflexivity|]. rewrite Z.quot_div_nonneg; [reflexivity|apply Z.pow_nonneg; lia|lia].
      - split; reflexivity.
    Qed.
    Lemma map_shows fuel : fewEvacuated byteAt -> shows_as (mapEncoder byteAt keysEncoder elemsEncoder keySize elemSize fuel) (mapShown byteAt keysS elemsS keySize elemSize).
    Proof.
      intros NV p m space m' out E. unfold mapEncoder in E. some E count. some E flags. some E B. some E noverflow. some E hash0. some E buckets. some E oldbuckets. some E nevacuate. some E extra.
      some E s1. some E s2. some E s3. some E s4. some E s5. some E bp. some E obp. some E s6. some E xp. some E m1. some E m2. some E m3. apply some_pair in E. destruct E as [<- <-].
      specialize (NV p _ ltac:(intros i Hi; eapply hmap_read; eassumption) Heqo6). pose proof (le_range _ byte_range _ _ _ Heqo1) as RB.
      destruct (int_num _ _ _ (int_range_at _ _ _ Heqo) Heqo8) as (t1 & -> & N1 & V1). pose proof (le_range _ byte_range _ _ _ Heqo0) as R2. change (256 ^ Z.of_nat 1) with 256 in *.
      destruct (uint8_num _ _ _ R2 Heqo9) as (t2 & -> & N2 & V2). destruct (uint8_num _ _ _ RB Heqo10) as (t3 & -> & N3 & V3). pose proof (le_range _ byte_range _ _ _ Heqo2) as R4. change (256 ^ Z.of_nat 2) with (2 ^ 16) in R4.
      destruct (uint16_num _ _ _ R4 Heqo11) as (t4 & -> & N4 & V4). pose proof (le_range _ byte_range _ _ _ Heqo3) as R5. change (256 ^ Z.of_nat 4) with (2 ^ 32) in R5.
      destruct (uint32_num _ _ _ R5 Heqo12) as (t5 & -> & N5 & V5). pose proof (le_range _ byte_range _ _ _ Heqo6) as R6.
      destruct (uint64_num _ _ _ (conj (proj1 R6) NV) Heqo15) as (t6 & -> & N6 & V6).
      pose proof (address_of _ _ (ptr_range _ byte_range _ _ Heqo4) Heqo13) as A1. pose proof (address_of _ _ (ptr_range _ byte_range _ _ Heqo5) Heqo14) as A2. pose proof (address_of _ _ (ptr_range _ byte_range _ _ Heqo7) Heqo16) as A3.
      destruct (follow_shows _ _ _ _ _ _ (buckets_shows _ _) A1 Heqo17) as (x1 & a1 & -> & X1 & L1). destruct (follow_shows _ _ _ _ _ _ (buckets_shows _ _) A2 Heqo18) as (x2 & a2 & -> & X2 & L2).
      destruct (follow_shows _ _ _ _ _ _ (extra_shows fuel) A3 Heqo19) as (x3 & a3 & -> & X3 & L3).
      pose (l := [(bs "count", t1); (bs "flags", t2); (bs "B", t3); (bs "noverflow", t4); (bs "hash0", t5); (bs "buckets", ptrObj bp); (bs "oldbuckets", ptrObj obp); (bs "nevacuate", t6); (bs "extra", ptrObj xp)]).
      exists (obj l). eexists. exists (x3 ++ x2 ++ x1), (a3 ++ a2 ++ a1). split; [unfold l; texts|]. split.
      { apply (obj_text l [JNum t1; JNum t2; JNum t3; JNum t4; JNum t5; ptrJson bp; ptrJson obp; JNum t6; ptrJson xp]); [unfold l; keys|]. repeat (constructor; [first [assumption|eapply ptrJson_text; eassumption]|]). constructor. }
      split; [rewrite <- !app_assoc; reflexivity|]. split; [apply textsOf_app; [exact X3|apply textsOf_app; assumption]|].
      exists count, flags, B, noverflow, hash0, buckets, oldbuckets, nevacuate, extra, t1, t2, t3, t4, t5, t6, bp, obp, xp, a1, a2, a3.
      apply int_signed in Heqo. apply le_unsigned in Heqo0, Heqo1, Heqo2, Heqo3, Heqo6. apply ptr_unsigned in Heqo4, Heqo5, Heqo7. destruct (count_is B (proj1 RB)) as [C1 C2].
      unfold bucketsShown in L1, L2. rewrite C1 in L1. rewrite C2 in L2. repeat (split; [assumption|]). split; reflexivity.
    Qed.
  End Map.

  (** ** Every type *)
  Section Typed.
    Variable box : amap -> bytes -> Z -> Z.
    Variable types : nat -> ty.
    Variable sizeOf : nat -> Z.
    Variable leaf : nat -> enc.
    Variable leafShown : nat -> showing.
    Variable depth overflows : nat.
    Hypothesis addresses : forall p, byteAt p <> None -> 0 <= p <= 18446744073709551615.
    Hypothesis box_has : forall m space p, 0 <= p < 2 ^ 47 -> stored byteAt (box m space p) (leBytes 8 p).
    Hypothesis deep : forall t, oneWord types t -> likePtr types depth t = true.
    Hypothesis leaves : forall t, types t = TLeaf -> shows_as (leaf t) (leafShown t).
    Hypothesis names : forall t fs, types t = TStruct fs -> forall name offset u, In (name, offset, u) fs -> plainKey name.
    Hypothesis maps : forall t k u, types t = TMap k u -> fewEvacuated byteAt.
    Lemma like_word n : forall t, likePtr types n t = true -> oneWord types t.
    Proof.
      clear. induction n as [|n IH]; intros t H; cbn [likePtr] in H; [discriminate|]. destruct (types t) as [|u|u|k u|[|[|i]] u|[|[[nm o] u] [|f fs]]|] eqn:T; try discriminate H.
      - eapply word_ptr; exact T.
      - eapply word_map; exact T.
      - eapply word_array; [exact T|apply IH; exact H].
      - eapply word_struct; [exact T|apply IH; exact H].
    Qed.
    Lemma wrap_shows R t e : shows_as e (R t) -> shows_as (wrap box types depth t e) (behind byteAt types R t).
    Proof.
      intros G p m space m' out E. unfold wrap in E. destruct (likePtr types depth t) eqn:L.
      - unfold onePtr in E. destruct (G _ _ _ _ _ E) as (tx & j & x & a & H1 & H2 & H3 & H4 & H5). exists tx, j, x, a. repeat (split; [assumption|]). right. split; [apply (like_word depth); exact L|]. exists (box m space p). split; [apply box_has|exact H5].
      - destruct (G _ _ _ _ _ E) as (tx & j & x & a & H1 & H2 & H3 & H4 & H5). exists tx, j, x, a. repeat (split; [assumption|]). left. split; [|exact H5]. intros W. apply deep in W. congruence.
    Qed.
    Lemma encoder_shows fuel : forall t e, encoderOf byteAt box types sizeOf leaf depth overflows fuel t = Some e -> shows_as e (shown byteAt types sizeOf leafShown fuel t).
    Proof.
      induction fuel as [|fuel IH]; intros t e E; cbn [encoderOf] in E; [discriminate|].
      unfold shows_as. cbn [shown]. destruct (types t) as [|u|u|k u|n u|fs|] eqn:T.
      - apply some_eq in E. subst e. exact string_shows.
      - some E e1. apply some_eq in E. subst e. exact (pointer_shows _ _ (wrap_shows _ _ _ (IH _ _ Heqo)) addresses).
      - some E e1. apply some_eq in E. subst e. exact (slice_shows _ _ _ (wrap_shows _ _ _ (IH _ _ Heqo))).
      - some E e1. some E e2. apply some_eq in E. subst e. exact (map_shows _ _ _ _ _ _ (array_shows _ _ _ _ (IH _ _ Heqo)) (array_shows _ _ _ _ (IH _ _ Heqo0)) _ (maps _ _ _ T)).
      - some E e1. apply some_eq in E. subst e. exact (array_shows _ _ _ _ (IH _ _ Heqo)).
      - some E l. apply some_eq in E. subst e. exact (struct_shows _ _ _ _ IH (names _ _ T) Heqo).
      - apply some_eq in E. subst e. exact (leaves _ T).
    Qed.
    Lemma Encoder_shows fuel t e : EncoderOf byteAt box types sizeOf leaf depth overflows fuel t = Some e -> shows_as e (behind byteAt types (shown byteAt types sizeOf leafShown fuel) t).
    Proof. intros E. unfold EncoderOf in E. some E e1. apply some_eq in E. subst e. apply wrap_shows. eapply encoder_shows. exact Heqo. Qed.
  End Typed.

  (** ** The document *)
  Lemma entries_member m k x : In (k, x) (entries m) <-> (exists m1 m2, m = m1 ++ (k, x) :: m2 /\ ~ In k (map fst m1)).
  Proof.
    induction m as [|[k1 x1] m IH]; cbn [entries].
    - split; [intros []|intros (m1 & m2 & E & _); destruct m1; discriminate E].
    - split.
      + intros [E|I].
        * injection E as -> ->. exists [], m. split; [reflexivity|intros []].
        * apply filter_In in I. destruct I as [I F]. apply IH in I. destruct I as (m1 & m2 & -> & N). exists ((k1, x1) :: m1), m2. split; [reflexivity|]. cbn [map fst]. intros [E|I]; [|exact (N I)].
          cbn [fst] in F. assert (has k [(k1, x1)] = true) as H by (apply has_one; symmetry; exact E). rewrite H in F. discriminate F.
      + intros (m1 & m2 & E & N). destruct m1 as [|[k2 x2] m1]; cbn [app] in E.
        * injection E as -> -> ->. left. reflexivity.
        * injection E as <- <- E. right. apply filter_In. split; [apply IH; exists m1, m2; split; [exact E|intros I; apply N; right; exact I]|]. cbn [fst]. destruct (has k [(k1, x1)]) eqn:H; [|reflexivity].
          apply has_one in H. cbn [fst] in H. destruct N. left. symmetry. exact H.
  Qed.
  Lemma memberOf_split k l j : memberOf k l = Some j <-> exists l1 l2, l = l1 ++ (k, j) :: l2 /\ ~ In k (map fst l1).
  Proof.
    induction l as [|[k1 j1] l IH]; cbn [memberOf].
    - split; [discriminate|intros (l1 & l2 & E & _); destruct l1; discriminate E].
    - destruct (list_eq_dec Z.eq_dec k k1) as [<-|N].
      + split; [intros E; apply some_eq in E; subst j; exists [], l; split; [reflexivity|intros []]|]. intros (l1 & l2 & E & N). destruct l1 as [|q l1]; cbn [app] in E; [congruence|]. injection E as <- _. destruct N. left. reflexivity.
      + rewrite IH. split; intros (l1 & l2 & E & NI).
        * exists ((k1, j1) :: l1), l2. split; [rewrite E; reflexivity|]. intros [X|X]; [cbn [fst] in X; congruence|exact (NI X)].
        * destruct l1 as [|q l1]; cbn [app] in E; [injection E as -> -> ->; contradiction|]. injection E as <- E. exists l1, l2. split; [exact E|]. intros X. apply NI. right. exact X.
  Qed.

  Lemma textsOf_split x a : textsOf x a -> forall k j, memberOf k a = Some j -> exists t, In (k, t) (entries x) /\ valueText t j.
  Proof.
    intros T k j M. apply memberOf_split in M. destruct M as (a1 & a2 & -> & N). apply Forall2_app_inv_r in T. destruct T as (x1 & x2 & T1 & T2 & ->). inversion T2 as [|[k' t] ? x3 ? [K [_ V]] T3]; subst. cbn [fst snd] in *. subst k'.
    exists t. split; [|exact V]. apply entries_member. exists x1, x3. split; [reflexivity|]. intros I. apply N. clear - T1 I. induction T1 as [|[k1 t1] [k2 j2] x a [E _] T IH]; [exact I|]. cbn [map fst] in *. destruct I as [I|I]; [left; congruence|right; exact (IH I)].
  Qed.
  Lemma textsOf_join x a : textsOf x a -> forall k t, In (k, t) (entries x) -> exists j, memberOf k a = Some j /\ valueText t j.
  Proof.
    intros T k t M. apply entries_member in M. destruct M as (x1 & x2 & -> & N). apply Forall2_app_inv_l in T. destruct T as (a1 & a2 & T1 & T2 & ->). inversion T2 as [|? [k' j] ? a3 [K [_ V]] T3]; subst. cbn [fst snd] in *. subst k'.
    exists j. split; [|exact V]. apply memberOf_split. exists a1, a3. split; [reflexivity|]. intros I. apply N. clear - T1 I. induction T1 as [|[k1 t1] [k2 j2] x a [E _] T IH]; [exact I|]. cbn [map fst] in *. destruct I as [I|I]; [left; congruence|right; exact (IH I)].
  Qed.
  Lemma values_of l : Forall (fun p : bytes * bytes => exists j, valueText (snd p) j) l -> exists js, Forall2 (fun (p : bytes * bytes) j => valueText (snd p) j) l js.
  Proof. induction 1 as [|p l (j & H) F (js & IH)]; [exists []; constructor|]. exists (j :: js). constructor; assumption. Qed.
  Lemma values_fuel l js : Forall2 (fun (p : bytes * bytes) j => valueText (snd p) j) l js -> exists n, Forall2 (fun (p : bytes * bytes) j => reads n (snd p) j) l js.
  Proof.
    induction 1 as [|p j l js [_ [n R]] F (N & IH)]; [exists 0%nat; constructor|]. exists (Nat.max n N). constructor; [eapply reads_le; [|exact R]; lia|].
    clear - IH. induction IH; constructor; [|assumption]. eapply reads_le; [|eassumption]. lia.
  Qed.
  Lemma pairs_in l js k v : Forall2 (fun (p : bytes * bytes) j => valueText (snd p) j) l js -> In (k, v) (combine (map fst l) js) -> exists t, In (k, t) l /\ valueText t v.
  Proof.
    induction 1 as [|[k1 t1] j l js V F IH]; intros I; [destruct I|]. cbn [map combine fst] in I. destruct I as [E|I]; [injection E as <- <-; exists t1; split; [left; reflexivity|exact V]|].
    destruct (IH I) as (t & It & Vt). exists t. split; [right; exact It|exact Vt].
  Qed.
  Lemma pairs_of l js k t : Forall2 (fun (p : bytes * bytes) j => valueText (snd p) j) l js -> In (k, t) l -> exists v, In (k, v) (combine (map fst l) js) /\ valueText t v.
  Proof.
    induction 1 as [|[k1 t1] j l js V F IH]; intros I; [destruct I|]. cbn [map combine fst]. destruct I as [E|I]; [injection E as -> ->; exists j; split; [left; reflexivity|exact V]|].
    destruct (IH I) as (v & Iv & Vv). exists v. split; [right; exact Iv|exact Vv].
  Qed.
  Lemma document_shows typeString dumperOf (R : Z -> showing) order root out :
    (forall p s, typeString p = Some s -> plainKey s) -> (forall p, shows_as (dumperOf p) (R p)) -> (forall l, Permutation (order l) l) ->
    VarString byteAt typeString dumperOf order root = Some out ->
    exists ms dt data name s j a, parses out (JObj ms) /\ NoDup (map fst ms) /\ unsignedAt byteAt 8 root dt /\ typeString dt = Some name /\ unsignedAt byteAt 8 (root + 8) data /\ addressIs s data /\ R dt data j a /\
      forall k v, In (k, v) ms <-> memberOf k ((bs "__root__", JObj [(bs "type", JStr name); (bs "data", ptrJson s)]) :: (s, j) :: a) = Some v.
  Proof.
    intros N G P E. unfold VarString in E. some E r. destruct r as [m1 rootText]. apply some_eq in E. subst out. unfold efaceEncoder in Heqo. some Heqo dt. some Heqo data. some Heqo name. some Heqo s. some Heqo r. destruct r as [m2 text].
    apply some_pair in Heqo. destruct Heqo as [<- <-]. destruct (G _ _ _ _ _ _ Heqo4) as (t & j & x & a & T & V & Em & X & Rj). cbn [app] in T. subst t. rewrite app_nil_r in Em. subst m2.
    pose proof (address_of _ _ (ptr_range _ byte_range _ _ Heqo1) Heqo3) as A. pose (lo := [(bs "type", [34] ++ name ++ [34]); (bs "data", ptrObj s)]).
    match goal with |- context [put (bs "__root__") ?rt _] => set (rootText := rt) in *; assert (Eo : rootText = obj lo) by (unfold rootText, lo; texts) end. clearbody rootText.
    set (jr := JObj [(bs "type", JStr name); (bs "data", ptrJson s)]). assert (Vr : valueText rootText jr).
    { rewrite Eo. apply (obj_text lo [JStr name; ptrJson s]); [unfold lo; keys|]. unfold lo. cbn [map snd]. constructor; [apply str_text; eapply N; exact Heqo2|]. constructor; [eapply ptrJson_text; exact A|constructor]. }
    pose proof (textsOf_cons _ _ _ _ _ _ A V X) as X1. change (put s text x) with ((s, text) :: x) in *. remember ((s, text) :: x) as x1 eqn:Ex. remember ((s, j) :: a) as a1 eqn:Ea.
    set (x2 := put (bs "__root__") rootText x1). set (a2 := (bs "__root__", jr) :: a1).
    assert (To : forall k v, In (k, v) (entries x2) -> exists w, memberOf k a2 = Some w /\ valueText v w).
    { intros k v I. unfold x2, put in I. cbn [entries] in I. unfold a2. cbn [memberOf]. destruct I as [I|I].
      - injection I as <- <-. destruct (list_eq_dec Z.eq_dec (bs "__root__") (bs "__root__")) as [_|NE]; [exists jr; split; [reflexivity|exact Vr]|destruct NE; reflexivity].
      - apply filter_In in I. destruct I as [I F]. cbn [fst] in F. destruct (list_eq_dec Z.eq_dec k (bs "__root__")) as [->|NE]; [|apply (textsOf_join _ _ X1); exact I].
        match type of F with negb ?b = true => assert (b = true) as H by (apply has_one; reflexivity); rewrite H in F end. discriminate F. }
    assert (Of : forall k w, memberOf k a2 = Some w -> exists v, In (k, v) (entries x2) /\ valueText v w).
    { intros k w I. unfold x2, put. cbn [entries]. unfold a2 in I. cbn [memberOf] in I. destruct (list_eq_dec Z.eq_dec k (bs "__root__")) as [->|NE].
      - apply some_eq in I. subst w. exists rootText. split; [left; reflexivity|exact Vr].
      - destruct (textsOf_split _ _ X1 _ _ I) as (t & It & Vt). exists t. split; [right; apply filter_In; split; [exact It|]|exact Vt]. cbn [fst]. match goal with |- negb ?b = true => destruct b eqn:H; [apply has_one in H; cbn [fst] in H; contradiction|reflexivity] end. }
    assert (Keys : Forall (fun p => goodKey (fst p)) (entries x2)).
    { apply Forall_forall. intros [k y] I. apply entries_in in I. destruct I as [I|I]; [injection I as <- <-; right; reflexivity|]. left. cbn [fst]. clear - X1 I. induction X1 as [|e q x a [_ [K _]] F IH]; [destruct I|]. destruct I as [->|I]; [exact K|exact (IH I)]. }
    assert (All : Forall (fun p : bytes * bytes => exists w, valueText (snd p) w) (entries x2)). { apply Forall_forall. intros [k y] I. destruct (To _ _ I) as (w & _ & Vw). exists w. exact Vw. }
    pose proof (P (entries x2)) as Pe. set (l := order (entries x2)) in *. apply Permutation_sym in Pe. eapply Permutation_Forall in All; [|exact Pe]. eapply Permutation_Forall in Keys; [|exact Pe].
    destruct (values_of _ All) as (js & F). destruct (values_fuel _ _ F) as (n & Rn). destruct (raw_good l js n Keys Rn true (bs "{")) as (ts & W & M). destruct (reads_object _ _ _ M) as (k & Rk).
    assert (KeysOf : map fst (combine (map fst l) js) = map fst l) by (eapply keys_of_pairs; exact F).
    assert (ND : NoDup (map fst l)) by (eapply Permutation_NoDup; [apply Permutation_map; exact Pe|apply entries_nodup]).
    exists (combine (map fst l) js), dt, data, name, s, j, a.
    split. { exists k, []. split; [|reflexivity]. specialize (Rk [] Logic.I). rewrite app_nil_r in Rk. rewrite W. rewrite <- app_assoc. exact Rk. }
    split; [rewrite KeysOf; exact ND|]. split; [apply ptr_unsigned; assumption|]. split; [exact Heqo2|]. split; [apply ptr_unsigned; assumption|]. split; [exact A|]. split; [exact Rj|].
    fold jr. rewrite <- Ea. fold a2. intros k' v. split.
    - intros I. destruct (pairs_in _ _ _ _ F I) as (t & It & Vt). apply (Permutation_in _ (Permutation_sym Pe)) in It. destruct (To _ _ It) as (w & Mw & Vw). rewrite (valueText_unique _ _ _ Vt Vw). exact Mw.
    - intros Mv. destruct (Of _ _ Mv) as (t & It & Vt). apply (Permutation_in _ Pe) in It. destruct (pairs_of _ _ _ _ F It) as (w & Iw & Vw). rewrite (valueText_unique _ _ _ Vt Vw). exact Iw.
  Qed.
End Mem.

(** ** That something is written *)
Lemma digit_there i : 0 <= i < 1000 -> exists d, nthZ digits i = Some d.
Proof. intros R. eexists. apply digits_at. exact R. Qed.
Lemma rest_small q : 0 <= q -> 0 <= u64 (q - q / 1000 * 1000) < 1000.
Proof. intros H. pose proof (Z.mod_pos_bound q 1000 ltac:(lia)) as M. rewrite Z.mod_eq in M by lia. unfold u64. replace (q / 1000 * 1000) with (1000 * (q / 1000)) by lia. rewrite Z.mod_small; lia. Qed.
Lemma first_small q : 0 <= q -> (q / 1000 =? 0) = true -> 0 <= q < 1000.
Proof. intros H E. apply Z.eqb_eq in E. apply Z.div_small_iff in E; lia. Qed.
Lemma ptr_there p : 0 <= p -> exists s, ptrToStr p = Some s.
Proof.
  intros H. unfold ptrToStr, WriteUint64.
  repeat match goal with
  | |- context [(?q / 1000) =? 0] => let E := fresh "E" in let R := fresh "R" in let d := fresh "d" in
      assert (0 <= q) by (repeat (apply Z.div_pos; [|lia]); exact H); destruct (q / 1000 =? 0) eqn:E;
      [destruct (digit_there _ (first_small q ltac:(assumption) E)) as (d & ->)|destruct (digit_there _ (rest_small q ltac:(assumption))) as (d & ->)]; cbn [obind]
  end; eauto.
Qed.
Lemma int_there space v : - 2 ^ 63 <= v < 2 ^ 63 -> exists out, WriteInt64 space v = Some out.
Proof. intros R. destruct (C01_int64 space v R) as (t & X & _). eauto. Qed.
Section Total.
  Variable byteAt : Z -> option Z.
  Hypothesis all_there : forall p, 0 <= p -> exists b, byteAt p = Some b /\ 0 <= b < 256.
  Hypothesis none_below : forall p b, byteAt p = Some b -> 0 <= b < 256.
  Definition writesAll (e : enc) : Prop := forall m space p, 0 <= p -> exists r, e m space p = Some r.
  Lemma le_there n : forall p, 0 <= p -> exists v, le byteAt n p = Some v.
  Proof. induction n as [|n IH]; intros p H; [exists 0; reflexivity|]. cbn [le]. destruct (all_there p H) as (b & -> & _). cbn [obind]. destruct (IH (p + 1) ltac:(lia)) as (r & ->). cbn [obind]. eauto. Qed.
  Lemma ptrAt_there p : 0 <= p -> exists v, ptrAt byteAt p = Some v /\ 0 <= v.
  Proof. intros H. destruct (le_there 8 p H) as (v & E). exists v. split; [exact E|]. apply (le_range _ none_below) in E. lia. Qed.
  Lemma intAt_there p : 0 <= p -> exists v, intAt byteAt p = Some v /\ - 2 ^ 63 <= v < 2 ^ 63.
  Proof. intros H. destruct (le_there 8 p H) as (v & E). unfold intAt. rewrite E. cbn [obind]. eexists. split; [reflexivity|apply wrap_range]. Qed.
  Lemma bytesAt_there n : forall p, 0 <= p -> exists s, bytesAt byteAt n p = Some s.
  Proof. induction n as [|n IH]; intros p H; [exists []; reflexivity|]. cbn [bytesAt]. destruct (all_there p H) as (b & -> & _). cbn [obind]. destruct (IH (p + 1) ltac:(lia)) as (r & ->). cbn [obind]. eauto. Qed.
  Lemma data_there elem size : writesAll elem -> 0 <= size -> forall n first m space p, 0 <= p -> exists r, dataLoop elem size n first m space p = Some r.
  Proof.
    intros G Sz. induction n as [|n IH]; intros first m space p H; cbn [dataLoop]; [eauto|]. match goal with |- context [elem m ?sp p] => destruct (G m sp p H) as ([m1 o1] & ->) end. cbn [obind]. apply IH. lia.
  Qed.
  Ltac next H := let v := fresh "v" in let E := fresh "E" in let R := fresh "R" in destruct H as (v & E & R); rewrite E; cbn [obind].
  Lemma string_there : writesAll (stringEncoder byteAt).
  Proof.
    intros m space p H. unfold stringEncoder. destruct (ptrAt_there p H) as (data & -> & D). cbn [obind]. destruct (intAt_there (p + 8) ltac:(lia)) as (len & -> & L). cbn [obind]. destruct (ptr_there data D) as (s & ->). cbn [obind].
    match goal with |- context [WriteInt64 ?sp len] => destruct (int_there sp len L) as (o & ->) end. cbn [obind]. destruct (bytesAt_there (Z.to_nat len) data D) as (b & ->). cbn [obind]. eauto.
  Qed.
  Lemma pointer_there elem : writesAll elem -> writesAll (pointerEncoder byteAt elem).
  Proof.
    intros G m space p H. unfold pointerEncoder. destruct (ptr_there p H) as (s & ->). cbn [obind]. destruct (ptrAt_there p H) as (q & -> & Q). cbn [obind]. destruct (G m [] q Q) as ([m1 t] & ->). cbn [obind]. eauto.
  Qed.
  Lemma slice_there elem size : writesAll elem -> 0 <= size -> writesAll (sliceEncoder byteAt elem size).
  Proof.
    intros G Sz m space p H. unfold sliceEncoder, encodeData. destruct (ptrAt_there p H) as (data & -> & D). cbn [obind]. destruct (intAt_there (p + 8) ltac:(lia)) as (len & -> & L). cbn [obind].
    destruct (intAt_there (p + 16) ltac:(lia)) as (cap & -> & C). cbn [obind]. destruct (ptr_there data D) as (s & ->). cbn [obind].
    match goal with |- context [WriteInt64 ?sp len] => destruct (int_there sp len L) as (o & ->) end. cbn [obind]. match goal with |- context [WriteInt64 ?sp cap] => destruct (int_there sp cap C) as (o1 & ->) end. cbn [obind].
    match goal with |- context [dataLoop elem size ?n true m ?sp data] => destruct (data_there elem size G Sz n true m sp data D) as ([m1 t] & ->) end. cbn [obind]. eauto.
  Qed.
  Lemma array_there elem size n : writesAll elem -> 0 <= size -> writesAll (arrayEncoder elem size n).
  Proof. intros G Sz m space p H. unfold arrayEncoder. match goal with |- context [dataLoop elem size n true m ?sp p] => destruct (data_there elem size G Sz n true m sp p H) as ([m1 t] & ->) end. cbn [obind]. eauto. Qed.
  Lemma struct_there l : Forall (fun f => 0 <= snd (fst f) /\ writesAll (snd f)) l -> writesAll (structEncoder l).
  Proof.
    intros F m space p H. unfold structEncoder. assert (G : forall first m space, exists r, structLoop l first m space p = Some r).
    { induction F as [|[[name o] e] l [O W] F IH]; intros first m0 sp; cbn [structLoop]; [eauto|]. cbn [fst snd] in O, W. match goal with |- context [e m0 ?s0 (p + o)] => destruct (W m0 s0 (p + o) ltac:(lia)) as ([m1 o1] & ->) end. cbn [obind]. apply IH. }
    match goal with |- context [structLoop l true m ?sp p] => destruct (G true m sp) as ([m1 o1] & ->) end. cbn [obind]. eauto.
  Qed.
  Section Typed.
    Variable box : amap -> bytes -> Z -> Z.
    Variable types : nat -> ty.
    Variable sizeOf : nat -> Z.
    Variable leaf : nat -> enc.
    Variable depth overflows : nat.
    Hypothesis boxes : forall m space p, 0 <= box m space p.
    Hypothesis sizes : forall t, 0 <= sizeOf t.
    Hypothesis offsets : forall t fs, types t = TStruct fs -> forall name offset u, In (name, offset, u) fs -> 0 <= offset.
    Hypothesis leaves : forall t, types t = TLeaf -> writesAll (leaf t).
    Hypothesis noMaps : forall t k u, types t <> TMap k u.
    Lemma wrap_there t e : writesAll e -> writesAll (wrap box types depth t e).
    Proof. intros G m space p H. unfold wrap, onePtr. destruct (likePtr types depth t); apply G; [apply boxes|exact H]. Qed.
    Lemma fields_there rec fs : (forall t e, rec t = Some e -> writesAll e) -> (forall name offset u, In (name, offset, u) fs -> 0 <= offset) -> forall l, fieldEncoders rec fs = Some l -> Forall (fun f => 0 <= snd (fst f) /\ writesAll (snd f)) l.
    Proof.
      intros R. induction fs as [|[[name offset] t] fs IH]; intros O l E; cbn [fieldEncoders] in E; [apply some_eq in E; subst l; constructor|]. destruct name as [|c name].
      - apply IH; [intros; eapply O; right; eassumption|exact E].
      - some E e. some E l'. apply some_eq in E. subst l. constructor; [cbn [fst snd]; split; [eapply O; left; reflexivity|eapply R; exact Heqo]|]. apply IH; [intros; eapply O; right; eassumption|reflexivity].
    Qed.
    Lemma encoder_there fuel : forall t e, encoderOf byteAt box types sizeOf leaf depth overflows fuel t = Some e -> writesAll e.
    Proof.
      induction fuel as [|fuel IH]; intros t e E; cbn [encoderOf] in E; [discriminate|]. destruct (types t) as [|u|u|k u|n u|fs|] eqn:T.
      - apply some_eq in E. subst e. exact string_there.
      - some E e1. apply some_eq in E. subst e. apply pointer_there, wrap_there, (IH _ _ Heqo).
      - some E e1. apply some_eq in E. subst e. apply slice_there; [apply wrap_there, (IH _ _ Heqo)|apply sizes].
      - destruct (noMaps _ _ _ T).
      - some E e1. apply some_eq in E. subst e. apply array_there; [apply (IH _ _ Heqo)|apply sizes].
      - some E l. apply some_eq in E. subst e. apply struct_there. eapply fields_there; [exact IH|eapply offsets; exact T|exact Heqo].
      - apply some_eq in E. subst e. apply leaves. exact T.
    Qed.
  End Typed.
End Total.
