From Verif Require Import Base DecimalSpec JsonIntModel JsonIntProofs JsonIntProps JsonStrModel JsonSpec JsonCompProofs DumpModel DumpSpec DumpProofs.
Open Scope Z_scope.
Open Scope list_scope.

(** ** When the encoders can be built *)
Section Build.
  Variable byteAt : Z -> option Z.
  Variable box : amap -> bytes -> Z -> Z.
  Variable types : nat -> ty.
  Variable sizeOf : nat -> Z.
  Variable leaf : nat -> enc.
  Variable depth overflows : nat.
  Let E := encoderOf byteAt box types sizeOf leaf depth overflows.
  Lemma fields_mono (r r' : nat -> option enc) fs : (forall t e, r t = Some e -> r' t = Some e) -> forall l, fieldEncoders r fs = Some l -> fieldEncoders r' fs = Some l.
  Proof.
    intros M. induction fs as [|[[name offset] t] fs IH]; intros l F; cbn [fieldEncoders] in *; [exact F|]. destruct name as [|c name]; [apply IH; exact F|].
    destruct (r t) as [e|] eqn:R; [|discriminate]. rewrite (M _ _ R). cbn [obind] in *. destruct (fieldEncoders r fs) as [l'|]; [|discriminate]. cbn [obind] in *. rewrite (IH _ eq_refl). exact F.
  Qed.
  Lemma encoder_mono fuel : forall t e, E fuel t = Some e -> E (S fuel) t = Some e.
  Proof.
    induction fuel as [|fuel IH]; intros t e H; [discriminate|]. unfold E in *. cbn [encoderOf] in H. remember (S fuel) as f. cbn [encoderOf]. subst f.
    destruct (types t) as [|u|u|k u|n u|fs|]; try exact H; cbn [obind] in *.
    - destruct (encoderOf byteAt box types sizeOf leaf depth overflows fuel u) as [e1|] eqn:R; [|discriminate]. rewrite (IH _ _ R). exact H.
    - destruct (encoderOf byteAt box types sizeOf leaf depth overflows fuel u) as [e1|] eqn:R; [|discriminate]. rewrite (IH _ _ R). exact H.
    - destruct (encoderOf byteAt box types sizeOf leaf depth overflows fuel k) as [e1|] eqn:R; [|discriminate]. rewrite (IH _ _ R). cbn [obind] in *.
      destruct (encoderOf byteAt box types sizeOf leaf depth overflows fuel u) as [e2|] eqn:R2; [|discriminate]. rewrite (IH _ _ R2). exact H.
    - destruct (encoderOf byteAt box types sizeOf leaf depth overflows fuel u) as [e1|] eqn:R; [|discriminate]. rewrite (IH _ _ R). exact H.
    - destruct (fieldEncoders (encoderOf byteAt box types sizeOf leaf depth overflows fuel) fs) as [l|] eqn:R; [|discriminate]. rewrite (fields_mono _ _ _ IH _ R). exact H.
  Qed.
  Lemma encoder_le f g t e : (f <= g)%nat -> E f t = Some e -> E g t = Some e.
  Proof. induction 1; auto. intros H'. apply encoder_mono. auto. Qed.
  Lemma fields_build fs : (forall name offset u, name <> [] -> In (name, offset, u) fs -> exists f e, E f u = Some e) -> exists f l, fieldEncoders (E f) fs = Some l.
  Proof.
    induction fs as [|[[name offset] t] fs IH]; intros H; [exists 0%nat, []; reflexivity|]. destruct IH as (f & l & F); [intros; eapply H; [eassumption|right; eassumption]|].
    destruct name as [|c name]; [exists f, l; exact F|]. destruct (H (c :: name) offset t ltac:(discriminate) (or_introl eq_refl)) as (g & e & G). exists (Nat.max f g), ((c :: name, offset, e) :: l).
    cbn [fieldEncoders]. rewrite (encoder_le g (Nat.max f g) t e ltac:(lia) G). cbn [obind]. erewrite fields_mono; [reflexivity| |exact F]. intros u e'. apply encoder_le. lia.
  Qed.
  Lemma built_when t : finite types t -> exists fuel e, E fuel t = Some e.
  Proof.
    induction 1 as [t U IH]. unfold uses in *. unfold E in *. destruct (types t) as [|u|u|k u|n u|fs|] eqn:T.
    - exists 1%nat. cbn [encoderOf]. rewrite T. eauto.
    - destruct (IH u eq_refl) as (f & e & H). exists (S f). cbn [encoderOf]. rewrite T, H. cbn [obind]. eauto.
    - destruct (IH u eq_refl) as (f & e & H). exists (S f). cbn [encoderOf]. rewrite T, H. cbn [obind]. eauto.
    - destruct (IH k (or_introl eq_refl)) as (f & e & H). destruct (IH u (or_intror eq_refl)) as (g & e2 & H2). exists (S (Nat.max f g)). cbn [encoderOf]. rewrite T.
      pose proof (encoder_le f (Nat.max f g) k e ltac:(lia) H) as A. pose proof (encoder_le g (Nat.max f g) u e2 ltac:(lia) H2) as B. unfold E in *. rewrite A, B. cbn [obind]. eauto.
    - destruct (IH u eq_refl) as (f & e & H). exists (S f). cbn [encoderOf]. rewrite T, H. cbn [obind]. eauto.
    - destruct (fields_build fs) as (f & l & F). { intros name offset u N I. apply IH. eauto. } exists (S f). cbn [encoderOf]. rewrite T. unfold E in F. rewrite F. cbn [obind]. eauto.
    - exists 1%nat. cbn [encoderOf]. rewrite T. eauto.
  Qed.
  Lemma fields_built f fs l : fieldEncoders (E f) fs = Some l -> forall name offset u, name <> [] -> In (name, offset, u) fs -> exists e, E f u = Some e.
  Proof.
    revert l. induction fs as [|[[name offset] t] fs IH]; intros l F name' offset' u N I; [destruct I|]. cbn [fieldEncoders] in F. destruct name as [|c name].
    - destruct I as [I|I]; [injection I as <- _ _; contradiction|]. eapply IH; eassumption.
    - destruct (E f t) as [e|] eqn:R; [|discriminate]. cbn [obind] in F. destruct (fieldEncoders (E f) fs) as [l'|] eqn:L; [|discriminate]. destruct I as [I|I]; [injection I as _ _ <-; eauto|]. eapply IH; eauto.
  Qed.
  Lemma built_only fuel : forall t e, E fuel t = Some e -> finite types t.
  Proof.
    induction fuel as [|fuel IH]; intros t e H; [discriminate|]. constructor. intros u U. unfold E in *. cbn [encoderOf] in H. unfold uses in U. destruct (types t) as [|v|v|k v|n v|fs|]; try contradiction.
    - subst u. destruct (encoderOf byteAt box types sizeOf leaf depth overflows fuel v) as [e1|] eqn:R; [|discriminate]. eapply IH. exact R.
    - subst u. destruct (encoderOf byteAt box types sizeOf leaf depth overflows fuel v) as [e1|] eqn:R; [|discriminate]. eapply IH. exact R.
    - destruct (encoderOf byteAt box types sizeOf leaf depth overflows fuel k) as [e1|] eqn:R; [|discriminate]. cbn [obind] in H.
      destruct (encoderOf byteAt box types sizeOf leaf depth overflows fuel v) as [e2|] eqn:R2; [|discriminate]. destruct U as [-> | ->]; eapply IH; eassumption.
    - subst u. destruct (encoderOf byteAt box types sizeOf leaf depth overflows fuel v) as [e1|] eqn:R; [|discriminate]. eapply IH. exact R.
    - destruct (fieldEncoders (encoderOf byteAt box types sizeOf leaf depth overflows fuel) fs) as [l|] eqn:R; [|discriminate]. destruct U as (name & offset & N & I). destruct (fields_built _ _ _ R _ _ _ N I) as (e1 & R1). eapply IH. exact R1.
  Qed.
End Build.

(** ** When a chain of overflow buckets is followed to its end *)
Lemma ptrToStr_total p : 0 <= p <= 18446744073709551615 -> exists s, ptrToStr p = Some s.
Proof.
  intros R. unfold ptrToStr. destruct (Z_lt_ge_dec p (10 ^ 19)) as [L|L].
  - destruct (WriteUint64_ok [] p ltac:(lia)) as (t & E & _). eauto.
  - destruct (WriteUint64_big [] p ltac:(lia)) as (c & u & E & _). eauto.
Qed.
Section Chain.
  Variable byteAt : Z -> option Z.
  Hypothesis bytes_there : forall p, exists b, byteAt p = Some b /\ 0 <= b < 256.
  Variable keysEncoder elemsEncoder : enc.
  Variable keySize elemSize : Z.
  Hypothesis keys_total : forall m s p, exists r, keysEncoder m s p = Some r.
  Hypothesis elems_total : forall m s p, exists r, elemsEncoder m s p = Some r.
  Lemma range p b : byteAt p = Some b -> 0 <= b < 256.
  Proof. intros E. destruct (bytes_there p) as (b' & E' & R). congruence. Qed.
  Lemma le_total n : forall p, exists x, le byteAt n p = Some x.
  Proof. induction n as [|n IH]; intros p; [eexists; reflexivity|]. cbn [le]. destruct (bytes_there p) as (b & -> & _). cbn [obind]. destruct (IH (p + 1)) as (x & ->). eexists. reflexivity. Qed.
  Lemma tophash_total n : forall first space p, exists out, tophashLoop byteAt n first space p = Some out.
  Proof.
    induction n as [|n IH]; intros first space p; [eexists; reflexivity|]. cbn [tophashLoop]. destruct (bytes_there p) as (b & -> & R). cbn [obind].
    destruct (C01_uint8 (if first then space else space ++ bs ",") b R) as (t & -> & _). cbn [obind]. apply IH.
  Qed.
  Definition next (p : Z) : option Z := ptrAt byteAt (p + bucketSize keySize elemSize - 8).
  Lemma bucket_step fuel m space p q : next p = Some q -> exists m1 s1 s, ptrToStr q = Some s /\
    encodeBucket byteAt keysEncoder elemsEncoder keySize elemSize (S fuel) m space p =
    (if q =? 0 then Some (m1, s1) else let? r := encodeBucket byteAt keysEncoder elemsEncoder keySize elemSize fuel m1 [] q in Some (put s (snd r) (fst r), s1)).
  Proof.
    intros N. cbn [encodeBucket]. destruct (tophash_total 8 true ((space ++ bs "{""tophash"":") ++ bs "[") p) as (o & ->). cbn [obind].
    destruct (keys_total m (o ++ bs "]" ++ bs ",""keys"":") (p + 8)) as ([mk sk] & ->). cbn [obind]. destruct (elems_total mk (sk ++ bs ",""elems"":") (p + 8 + keysSize keySize)) as ([me se] & ->). cbn [obind].
    unfold next in N. rewrite N. cbn [obind]. pose proof (ptr_range byteAt range _ _ N) as R. destruct (ptrToStr_total q R) as (s & S). rewrite S. cbn [obind]. exists me. eexists. exists s. split; [reflexivity|].
    destruct (q =? 0); [reflexivity|]. destruct (encodeBucket byteAt keysEncoder elemsEncoder keySize elemSize fuel me [] q) as [[a b]|]; reflexivity.
  Qed.
  Lemma next_total p : exists q, next p = Some q.
  Proof. apply le_total. Qed.
  Lemma chain_fuel fuel : forall m space p, (exists r, encodeBucket byteAt keysEncoder elemsEncoder keySize elemSize fuel m space p = Some r) <-> exists n, (n < fuel)%nat /\ chain next n p.
  Proof.
    induction fuel as [|fuel IH]; intros m space p; [split; [intros (r & E); discriminate|intros (n & L & _); lia]|]. destruct (next_total p) as (q & N). destruct (bucket_step fuel m space p q N) as (m1 & s1 & s & _ & ->).
    destruct (q =? 0) eqn:Z0.
    - apply Z.eqb_eq in Z0. subst q. split; [intros _; exists 0%nat; split; [lia|constructor; exact N]|intros _; eauto].
    - apply Z.eqb_neq in Z0. split.
      + intros (r & E). destruct (encodeBucket byteAt keysEncoder elemsEncoder keySize elemSize fuel m1 [] q) as [r1|] eqn:R; [|discriminate]. destruct (proj1 (IH m1 [] q) (ex_intro _ r1 R)) as (n & L & C). exists (S n). split; [lia|].
        eapply chain_more; eassumption.
      + intros (n & L & C). inversion C as [|n' p' q' N' Q' C']; subst; [congruence|]. rewrite N in N'. injection N' as <-. destruct (proj2 (IH m1 [] q)) as (r & R); [exists n'; split; [lia|exact C']|]. rewrite R. cbn [obind]. eauto.
  Qed.
End Chain.

(** ** Buckets one after another *)
Lemma buckets_at byteAt ke ee ks es fuel n : (forall m space p m' out, encodeBucket byteAt ke ee ks es fuel m space p = Some (m', out) -> exists t, out = space ++ t) ->
  forall first m space cursor m' out, bucketsLoop byteAt ke ee ks es fuel n first m space cursor = Some (m', out) ->
  exists ts, out = space ++ spaced first ts /\ List.length ts = n /\ forall i t, nth_error ts i = Some t -> exists mi si mi', encodeBucket byteAt ke ee ks es fuel mi si (cursor + Z.of_nat i * bucketSize ks es) = Some (mi', si ++ t).
Proof.
  intros A. induction n as [|n IH]; intros first m space cursor m' out E; cbn [bucketsLoop] in E.
  - apply some_pair in E. destruct E as [<- <-]. exists []. split; [destruct first; cbn; rewrite app_nil_r; reflexivity|]. split; [reflexivity|]. intros [|i] t X; discriminate X.
  - destruct (encodeBucket byteAt ke ee ks es fuel m (if first then space else space ++ bs ", ") cursor) as [[m1 o1]|] eqn:B; [|discriminate]. cbn [obind] in E. destruct (A _ _ _ _ _ B) as (t & ->).
    destruct (IH _ _ _ _ _ _ E) as (ts & -> & L & T). exists (t :: ts). rewrite spaced_cons. split; [destruct first; rewrite <- ?app_assoc; reflexivity|]. split; [cbn; congruence|]. intros [|i] t' X.
    + injection X as <-. exists m, (if first then space else space ++ bs ", "), m1. replace (cursor + Z.of_nat 0 * bucketSize ks es) with cursor by lia. exact B.
    + destruct (T _ _ X) as (mi & si & mi' & Y). exists mi, si, mi'. replace (cursor + Z.of_nat (S i) * bucketSize ks es) with (cursor + bucketSize ks es + Z.of_nat i * bucketSize ks es) by lia. exact Y.
Qed.
(** What a bucket's text is made of *)
Lemma bucket_fields byteAt ke ee ks es fuel m space p m' out : encodeBucket byteAt ke ee ks es fuel m space p = Some (m', out) ->
  exists s1 m1 s2 m2 s3 q s, tophashLoop byteAt 8 true (space ++ bs "{""tophash"":[") p = Some s1 /\ ke m (s1 ++ bs "],""keys"":") (p + 8) = Some (m1, s2) /\ ee m1 (s2 ++ bs ",""elems"":") (p + 8 + 8 * ks) = Some (m2, s3) /\
    ptrAt byteAt (p + (8 + 8 * ks + 8 * es)) = Some q /\ ptrToStr q = Some s /\ out = s3 ++ bs ",""overflow"":{""__ptr__"":""" ++ s ++ bs """}}".
Proof.
  destruct fuel as [|fuel]; [discriminate|]. cbn [encodeBucket]. intros E. replace ((space ++ bs "{""tophash"":") ++ bs "[") with (space ++ bs "{""tophash"":[") in E by (rewrite <- app_assoc; reflexivity).
  destruct (tophashLoop byteAt 8 true (space ++ bs "{""tophash"":[") p) as [s1|] eqn:H1; [|discriminate]. cbn [obind] in E.
  destruct (ke m (s1 ++ bs "]" ++ bs ",""keys"":") (p + 8)) as [[m1 s2]|] eqn:H2; [|discriminate]. cbn [obind] in E. destruct (ee m1 (s2 ++ bs ",""elems"":") (p + 8 + keysSize ks)) as [[m2 s3]|] eqn:H3; [|discriminate]. cbn [obind] in E.
  destruct (ptrAt byteAt (p + bucketSize ks es - 8)) as [q|] eqn:H4; [|discriminate]. cbn [obind] in E. destruct (ptrToStr q) as [s|] eqn:H5; [|discriminate]. cbn [obind] in E.
  assert (O : out = (s3 ++ bs ",""overflow"":{""__ptr__"":""") ++ s ++ bs """}}"). { destruct (q =? 0); [congruence|]. destruct (encodeBucket byteAt ke ee ks es fuel m2 [] q) as [[? ?]|]; [|discriminate]. cbn [obind] in E. congruence. }
  exists s1, m1, s2, m2, s3, q, s. split; [reflexivity|]. split; [exact H2|]. split; [unfold keysSize in H3; replace (p + 8 + 8 * ks) with (p + 8 + ks * 8) by lia; exact H3|].
  split; [unfold bucketSize, keysSize in H4; replace (p + (8 + 8 * ks + 8 * es)) with (p + (8 + ks * 8 + es * 8 + 8) - 8) by lia; exact H4|]. split; [exact H5|]. rewrite O, <- !app_assoc. reflexivity.
Qed.
(** ** The first thing a map's text shows *)
Lemma uint64_appends space v out : 0 <= v <= 18446744073709551615 -> WriteUint64 space v = Some out -> exists t, out = space ++ t.
Proof.
  intros R E. destruct (Z_lt_ge_dec v (10 ^ 19)) as [L|L].
  - destruct (WriteUint64_ok space v ltac:(lia)) as (t & X & _). rewrite X in E. apply some_eq in E. subst out. eauto.
  - destruct (WriteUint64_big space v ltac:(lia)) as (c & t & X & _). rewrite X in E. apply some_eq in E. subst out. eauto.
Qed.
Lemma map_count byteAt ke ee ks es fuel m space ptr m' out c : (forall p b, byteAt p = Some b -> 0 <= b < 256) -> mapEncoder byteAt ke ee ks es fuel m space ptr = Some (m', out) -> intAt byteAt ptr = Some c ->
  exists t rest, out = space ++ bs "{""count"":" ++ t ++ bs ",""flags"":" ++ rest /\ canon_int t c.
Proof.
  intros R E C. unfold mapEncoder in E. rewrite C in E. cbn [obind] in E. pose proof (int_range_at byteAt _ _ C) as Rc.
  destruct (le byteAt 1 (ptr + 8)) as [flags|] eqn:H1; [|discriminate]. cbn [obind] in E. destruct (le byteAt 1 (ptr + 9)) as [B|] eqn:H2; [|discriminate]. cbn [obind] in E.
  destruct (le byteAt 2 (ptr + 10)) as [nov|] eqn:H3; [|discriminate]. cbn [obind] in E. destruct (le byteAt 4 (ptr + 12)) as [h0|] eqn:H4; [|discriminate]. cbn [obind] in E.
  destruct (ptrAt byteAt (ptr + 16)) as [bk|] eqn:H5; [|discriminate]. cbn [obind] in E. destruct (ptrAt byteAt (ptr + 24)) as [ob|] eqn:H6; [|discriminate]. cbn [obind] in E.
  destruct (le byteAt 8 (ptr + 32)) as [nev|] eqn:H7; [|discriminate]. cbn [obind] in E. destruct (ptrAt byteAt (ptr + 40)) as [ex|] eqn:H8; [|discriminate]. cbn [obind] in E.
  destruct (C01_int64 (space ++ bs "{""count"":") c Rc) as (t & W & Ct). rewrite W in E. cbn [obind] in E. exists t.
  apply (le_range byteAt R) in H1, H2, H3, H4, H7. change (256 ^ Z.of_nat 1) with 256 in *. change (256 ^ Z.of_nat 2) with (2 ^ 16) in *. change (256 ^ Z.of_nat 4) with (2 ^ 32) in *.
  match type of E with obind ?a _ = _ => destruct a as [s2|] eqn:W2; [|discriminate E]; cbn [obind] in E end. destruct (uint8_out _ _ _ H1 W2) as (t2 & -> & _). clear W2.
  match type of E with obind ?a _ = _ => destruct a as [s3|] eqn:W2; [|discriminate E]; cbn [obind] in E end. destruct (uint8_out _ _ _ H2 W2) as (t3 & -> & _). clear W2.
  match type of E with obind ?a _ = _ => destruct a as [s4|] eqn:W2; [|discriminate E]; cbn [obind] in E end. destruct (uint16_out _ _ _ H3 W2) as (t4 & -> & _). clear W2.
  match type of E with obind ?a _ = _ => destruct a as [s5|] eqn:W2; [|discriminate E]; cbn [obind] in E end. destruct (uint32_out _ _ _ H4 W2) as (t5 & -> & _). clear W2.
  destruct (ptrToStr bk) as [bp|]; [|discriminate E]. cbn [obind] in E. destruct (ptrToStr ob) as [obp|]; [|discriminate E]. cbn [obind] in E.
  match type of E with obind ?a _ = _ => destruct a as [s6|] eqn:W2; [|discriminate E]; cbn [obind] in E end. apply uint64_appends in W2; [|change (256 ^ Z.of_nat 8) with 18446744073709551616 in H7; lia]. destruct W2 as (t6 & ->).
  destruct (ptrToStr ex) as [xp|]; [|discriminate E]. cbn [obind] in E.
  repeat match type of E with obind ?a _ = Some _ => destruct a; [|discriminate E]; cbn [obind] in E end. apply some_pair in E. destruct E as [_ <-].
  eexists. split; [rewrite <- !app_assoc; reflexivity|exact Ct].
Qed.
