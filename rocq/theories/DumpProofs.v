From Verif Require Import Base DecimalSpec JsonIntModel JsonIntProofs JsonIntProps JsonStrModel JsonStrSpec JsonStrProofs JsonStrProps JsonSpec JsonCompSpec JsonCompProofs DumpModel DumpSpec.
From Coq Require Import Permutation.
Open Scope Z_scope.
Open Scope list_scope.

(** ** Texts *)
Ltac literals := repeat match goal with |- context [bs ?s] => let v := eval vm_compute in (bs s) in change (bs s) with v end.
Definition plainKey (k : bytes) : Prop := Forall (fun b => ~ must_escape b) k.
Definition member (p : bytes * bytes) : bytes := [34] ++ fst p ++ [34; 58] ++ snd p.
Definition obj (l : list (bytes * bytes)) : bytes := [123] ++ sep true (map member l) ++ [125].
Definition arr (l : list bytes) : bytes := [91] ++ sep true l ++ [93].

Lemma common_reads l js : Forall2 valueText l js -> exists n, Forall2 (reads n) l js /\ Forall starts l.
Proof.
  induction 1 as [|t j l js [S [n R]] F [N [IH St]]]; [exists 0%nat; split; constructor|]. exists (Nat.max n N). split; [|constructor; assumption].
  constructor; [eapply reads_le; [|exact R]; lia|]. eapply Forall2_reads_le; [|exact IH]. lia.
Qed.
Lemma arr_text l js : Forall2 valueText l js -> valueText (arr l) (JArr js).
Proof.
  intros F. destruct (common_reads _ _ F) as (n & R & S). destruct (reads_array _ _ _ S R) as (m & X). split; [|exists m; exact X].
  exists 91, (sep true l ++ [93]). split; [reflexivity|]. split; [reflexivity|lia].
Qed.
Lemma obj_text l js : Forall (fun p => plainKey (fst p)) l -> Forall2 valueText (map snd l) js -> valueText (obj l) (JObj (combine (map fst l) js)).
Proof.
  intros K F. destruct (common_reads _ _ F) as (n & R & S). assert (M : Forall2 (reads_member n) (map member l) (combine (map fst l) js)).
  { clear F S. revert js R. induction K as [|[k t] l Hk K IH]; intros js R; cbn [map] in R; inversion R; subst; [constructor|]. cbn [map combine fst snd]. constructor; [|apply IH; assumption].
    exists ([34] ++ k ++ [34]), t. split; [unfold member; cbn [fst snd app]; rewrite <- app_assoc; reflexivity|]. split; [|exact H1]. apply quoted_plain. exact Hk. }
  destruct (reads_object _ _ _ M) as (m & X). split; [|exists m; exact X]. exists 123, (sep true (map member l) ++ [125]). split; [reflexivity|]. split; [reflexivity|lia].
Qed.
Lemma space_text n t j : reads n t j -> reads n (32 :: t) j.
Proof. intros R rest S. specialize (R rest S). destruct n as [|n]; [discriminate|]. cbn [app value skip_ws]. change (is_ws 32) with true. cbv iota. cbn [value] in R. exact R. Qed.
(** The arrays with a space after each comma *)
Definition arr2 (l : list bytes) : bytes := [91] ++ sep true (match l with [] => [] | t :: l => t :: map (cons 32) l end) ++ [93].
Lemma arr2_text l js : Forall2 valueText l js -> valueText (arr2 l) (JArr js).
Proof.
  intros F. destruct (common_reads _ _ F) as (n & R & St). split; [exists 91; eexists; split; [reflexivity|]; split; [reflexivity|lia]|].
  unfold arr2. destruct R as [|t j l js R Rs]; [exists 1%nat; intros rest _; reflexivity|]. assert (R2 : Forall2 (reads n) (map (cons 32) l) js).
  { clear F St. induction Rs; constructor; [apply space_text; assumption|assumption]. }
  exists (S (S (List.length (map (cons 32) l) + n))). intros rest _. inversion St as [|? ? S1 _]; subst. destruct S1 as (c & r & -> & W & N & _).
  remember (S (List.length (map (cons 32) l) + n)) as m eqn:Em. cbn [app value skip_ws]. change (is_ws 91) with false. cbv iota. cbn [Z.eqb Pos.eqb app sep]. cbn [skip_ws]. rewrite W.
  destruct (c =? 93) eqn:E; [lia|]. subst m.
  replace (c :: ((r ++ sep false (map (cons 32) l)) ++ [93]) ++ rest) with ((c :: r) ++ sep false (map (cons 32) l) ++ 93 :: rest) by (cbn [app]; rewrite <- !app_assoc; reflexivity).
  rewrite (elements_sep _ _ _ _ _ _ R R2). reflexivity.
Qed.
Lemma plain_lit s : forallb plain s = true -> plainKey s.
Proof. intros H. apply Forall_forall. intros b I. rewrite forallb_forall in H. apply plain_must. apply H. exact I. Qed.
Lemma str_text s : plainKey s -> valueText ([34] ++ s ++ [34]) (JStr s).
Proof. intros P. destruct (reads_str ([34] ++ s ++ [34]) s (quoted_plain s P)) as [R S]. split; [exact S|exists 1%nat; exact R]. Qed.
Lemma num_valueText t z : canon_int t z -> valueText t (JNum t).
Proof. intros C. destruct (reads_num t (canon_int_text _ _ C)) as [R S]. split; [exact S|exists 1%nat; exact R]. Qed.

(** ** The text of an address *)
Definition addrText (s : bytes) : Prop := Forall (fun b => 48 <= b <= 66) s.
Lemma addr_plain s : addrText s -> plainKey s.
Proof. intros H. eapply Forall_impl; [|exact H]. intros b R [X|[X|X]]; cbv beta in R; lia. Qed.
Lemma digits_ok : forallb (fun d => forallb (fun b => (48 <=? b) && (b <=? 57)) (writeBuf [] d ++ writeFirstBuf [] d)) digits = true.
Proof. vm_compute. reflexivity. Qed.
Lemma nthZ_in {A} (l : list A) i d : nthZ l i = Some d -> In d l.
Proof. unfold nthZ. destruct (i <? 0); [discriminate|]. apply nth_error_In. Qed.
Lemma digits_app i d : nthZ digits i = Some d -> forall sp, addrText sp -> addrText (writeBuf sp d) /\ addrText (writeFirstBuf sp d).
Proof.
  intros E sp A. pose proof digits_ok as K. rewrite forallb_forall in K. specialize (K d (nthZ_in _ _ _ E)). rewrite forallb_app, andb_true_iff in K. destruct K as [K1 K2].
  assert (W : forall l, forallb (fun b => (48 <=? b) && (b <=? 57)) l = true -> addrText l).
  { intros l H. apply Forall_forall. intros b I. rewrite forallb_forall in H. specialize (H b I). lia. }
  assert (Ap : forall a b, addrText a -> addrText b -> addrText (a ++ b)) by (intros; apply Forall_app; split; assumption).
  split.
  - unfold writeBuf in *. cbn [app] in K1. apply Ap; [exact A|apply W; exact K1].
  - unfold writeFirstBuf in *. destruct (Z.shiftr d 24 =? 0); [|destruct (Z.shiftr d 24 =? 1)]; cbn [app] in K2; rewrite <- ?app_assoc; apply Ap; try exact A; apply W; exact K2.
Qed.
Lemma digits_buf i d sp : nthZ digits i = Some d -> addrText sp -> addrText (writeBuf sp d).
Proof. intros E A. exact (proj1 (digits_app i d E sp A)). Qed.
Lemma digits_first i d sp : nthZ digits i = Some d -> addrText sp -> addrText (writeFirstBuf sp d).
Proof. intros E A. exact (proj2 (digits_app i d E sp A)). Qed.
Lemma div_step a b c : 0 <= a <= b -> b / 1000 = c -> 0 <= a / 1000 <= c.
Proof. intros R <-. split; [apply Z.div_pos; lia|apply Z.div_le_mono; lia]. Qed.
Lemma top_digit p : 0 <= p <= 18446744073709551615 -> 0 <= p / 1000 / 1000 / 1000 / 1000 / 1000 / 1000 <= 18.
Proof.
  intros R. eapply div_step in R; [|reflexivity]. eapply div_step in R; [|reflexivity]. eapply div_step in R; [|reflexivity].
  eapply div_step in R; [|reflexivity]. eapply div_step in R; [|reflexivity]. eapply div_step in R; [|reflexivity]. exact R.
Qed.
Lemma top_byte q : 0 <= q <= 18 -> addrText [u8 (q + 48)].
Proof. intros R. constructor; [|constructor]. unfold u8. change (2 ^ 8) with 256. rewrite Z.mod_small; lia. Qed.
Lemma ptr_text p s : 0 <= p <= 18446744073709551615 -> ptrToStr p = Some s -> addrText s.
Proof.
  intros R. apply top_digit in R. apply top_byte in R. unfold ptrToStr, WriteUint64. assert (A0 : addrText []) by constructor. cbn [app].
  remember (u8 (p / 1000 / 1000 / 1000 / 1000 / 1000 / 1000 + 48)) as top eqn:Et. clear Et.
  repeat (match goal with |- context [if ?c then _ else _] => destruct c end
          || match goal with |- context [nthZ digits ?i] => let d := fresh "d" in let E := fresh "E" in destruct (nthZ digits i) as [d|] eqn:E; cbn [obind]; [|discriminate] end);
  intros X; injection X as <-; repeat first [ exact A0 | exact R | eapply digits_buf; [eassumption|] | eapply digits_first; [eassumption|] ].
Qed.
Lemma ptr_zero s : ptrToStr 0 = Some s -> s = bs "0".
Proof. intros E. vm_compute in E. injection E as <-. reflexivity. Qed.
Lemma addr_key s : addrText s -> good_string s.
Proof.
  intros A. split.
  - eapply Forall_impl; [|exact A]. intros b R. cbv beta in R. unfold byte_ok. lia.
  - intros (p & c & -> & _ & M). apply Forall_app in A. destruct A as [_ A]. inversion A; subst. cbv beta in *. destruct M as [X|[X|X]]; lia.
Qed.

Section Mem.
  Variable byteAt : Z -> option Z.
  Hypothesis byte_range : forall p b, byteAt p = Some b -> 0 <= b < 256.
  Lemma le_range n : forall p x, le byteAt n p = Some x -> 0 <= x < 256 ^ Z.of_nat n.
  Proof.
    induction n as [|n IH]; intros p x E; cbn [le] in E; [injection E as <-; change (256 ^ Z.of_nat 0) with 1; lia|]. destruct (byteAt p) as [b|] eqn:B; [|discriminate]. cbn [obind] in E.
    destruct (le byteAt n (p + 1)) as [r|] eqn:R; [|discriminate]. cbn [obind] in E. assert (X : x = b + 256 * r) by congruence. rewrite X. specialize (IH _ _ R). apply byte_range in B.
    rewrite Nat2Z.inj_succ, Z.pow_succ_r by lia. remember (256 ^ Z.of_nat n) as w. clear - IH B. lia.
  Qed.
  Lemma le_read n : forall p x i, le byteAt n p = Some x -> 0 <= i < Z.of_nat n -> byteAt (p + i) <> None.
  Proof.
    clear. induction n as [|n IH]; intros p x i E R; [lia|]. cbn [le] in E. destruct (byteAt p) as [b|] eqn:B; [|discriminate]. cbn [obind] in E. destruct (le byteAt n (p + 1)) as [r|] eqn:L; [|discriminate].
    destruct (Z.eq_dec i 0) as [->|N]; [rewrite Z.add_0_r; congruence|]. specialize (IH (p + 1) r (i - 1) L ltac:(lia)). replace (p + 1 + (i - 1)) with (p + i) in IH by lia. exact IH.
  Qed.
  Lemma int_read p x i : intAt byteAt p = Some x -> 0 <= i < 8 -> byteAt (p + i) <> None.
  Proof. unfold intAt. destruct (le byteAt 8 p) eqn:L; [|discriminate]. intros _ R. eapply le_read; [exact L|exact R]. Qed.
  Lemma hmap_read p x0 x1 x2 x3 x4 x5 x6 x7 x8 i : intAt byteAt p = Some x0 -> le byteAt 1 (p + 8) = Some x1 -> le byteAt 1 (p + 9) = Some x2 -> le byteAt 2 (p + 10) = Some x3 -> le byteAt 4 (p + 12) = Some x4 ->
    ptrAt byteAt (p + 16) = Some x5 -> ptrAt byteAt (p + 24) = Some x6 -> le byteAt 8 (p + 32) = Some x7 -> ptrAt byteAt (p + 40) = Some x8 -> 0 <= i < 48 -> byteAt (p + i) <> None.
  Proof.
    clear. intros E0 E1 E2 E3 E4 E5 E6 E7 E8 R. assert (M : forall o n x, le byteAt n (p + o) = Some x -> o <= i < o + Z.of_nat n -> byteAt (p + i) <> None).
    { intros o n x L Ri. pose proof (le_read n _ _ (i - o) L ltac:(lia)) as H. replace (p + o + (i - o)) with (p + i) in H by lia. exact H. }
    destruct (Z_lt_ge_dec i 8); [eapply int_read; [exact E0|lia]|]. destruct (Z_lt_ge_dec i 9); [eapply M; [exact E1|lia]|]. destruct (Z_lt_ge_dec i 10); [eapply M; [exact E2|lia]|].
    destruct (Z_lt_ge_dec i 12); [eapply M; [exact E3|lia]|]. destruct (Z_lt_ge_dec i 16); [eapply M; [exact E4|lia]|]. destruct (Z_lt_ge_dec i 24); [eapply M; [exact E5|lia]|]. destruct (Z_lt_ge_dec i 32); [eapply M; [exact E6|lia]|].
    destruct (Z_lt_ge_dec i 40); [eapply M; [exact E7|lia]|]. eapply M; [exact E8|lia].
  Qed.
  Lemma ptr_range p x : ptrAt byteAt p = Some x -> 0 <= x <= 18446744073709551615.
  Proof. intros E. apply le_range in E. change (256 ^ Z.of_nat 8) with 18446744073709551616 in E. lia. Qed.
  Lemma wrap_range x : - 2 ^ 63 <= wrap_signed 64 x < 2 ^ 63.
  Proof. unfold wrap_signed. pose proof (Z.mod_pos_bound x (2 ^ 64) ltac:(lia)). change (2 ^ (64 - 1)) with (2 ^ 63). destruct (x mod 2 ^ 64 <? 2 ^ 63) eqn:E; lia. Qed.
  Lemma int_range_at p x : intAt byteAt p = Some x -> - 2 ^ 63 <= x < 2 ^ 63.
  Proof. unfold intAt. destruct (le byteAt 8 p); [|discriminate]. cbn [obind]. intros E. injection E as <-. apply wrap_range. Qed.
  Lemma bytes_range n : forall p s, bytesAt byteAt n p = Some s -> bytes_ok s.
  Proof.
    induction n as [|n IH]; intros p s E; cbn [bytesAt] in E; [injection E as <-; constructor|]. destruct (byteAt p) as [b|] eqn:B; [|discriminate]. cbn [obind] in E.
    destruct (bytesAt byteAt n (p + 1)) as [r|] eqn:R; [|discriminate]. cbn [obind] in E. injection E as <-. constructor; [apply (byte_range p); exact B|apply (IH _ _ R)].
  Qed.

  (** ** Addresses explained *)
  Lemma explained_more m added j : explained m j -> explained (added ++ m) j.
  Proof. intros H s S. destruct (H s S) as [X|(x & X)]; [left; exact X|right; exists x; apply in_or_app; right; exact X]. Qed.
  Lemma explained_put k v m j : explained m j -> explained (put k v m) j.
  Proof. apply (explained_more m [(k, v)]). Qed.
  Lemma explained_num m t : explained m (JNum t).
  Proof. intros s S. inversion S. Qed.
  Lemma explained_str m t : explained m (JStr t).
  Proof. intros s S. inversion S. Qed.
  Lemma explained_arr m l : (forall j, In j l -> explained m j) -> explained m (JArr l).
  Proof. intros H s S. inversion S; subst. eapply H; eauto. Qed.
  Lemma explained_obj m l : (forall s, l <> [(bs "__ptr__", JStr s)]) -> (forall k j, In (k, j) l -> explained m j) -> explained m (JObj l).
  Proof. intros N H s S. inversion S; subst; [destruct (N s); reflexivity|eapply H; eauto]. Qed.
  Lemma explained_ptr m s x : s = bs "0" \/ In (s, x) m -> explained m (JObj [(bs "__ptr__", JStr s)]).
  Proof.
    intros H s' S. inversion S; subst; [destruct H as [H|H]; [left; exact H|right; eauto]|]. destruct H1 as [X|[]]. injection X as <- <-. inversion H2.
  Qed.
  Definition ptrObj (s : bytes) : bytes := obj [(bs "__ptr__", [34] ++ s ++ [34])].
  Lemma ptrObj_text s : addrText s -> valueText (ptrObj s) (JObj [(bs "__ptr__", JStr s)]).
  Proof.
    intros A. apply (obj_text [(bs "__ptr__", [34] ++ s ++ [34])] [JStr s]).
    - constructor; [|constructor]. apply plain_lit. reflexivity.
    - constructor; [apply str_text, addr_plain, A|constructor].
  Qed.
  (** What an encoder has added, with what is explained at the end *)
  Definition okEntries (m' added : amap) : Prop := forall k x, In (k, x) added -> Forall (fun b => 48 <= b <= 66) k /\ exists jx, valueText x jx /\ explained m' jx.
  Lemma okEntries_more m' added more : okEntries m' added -> okEntries (more ++ m') added.
  Proof. intros H k x I. destruct (H k x I) as (K & jx & V & E). split; [exact K|]. exists jx. split; [exact V|apply explained_more; exact E]. Qed.
  Lemma okEntries_app m' a b : okEntries m' a -> okEntries m' b -> okEntries m' (a ++ b).
  Proof. intros A B k x I. apply in_app_or in I. destruct I; [apply A|apply B]; assumption. Qed.
  Lemma okEntries_put m added s x jx : okEntries (put s x (added ++ m)) added -> addrText s -> valueText x jx -> explained (put s x (added ++ m)) jx -> okEntries (put s x (added ++ m)) ((s, x) :: added).
  Proof. intros A K V E k y [X|I]; [injection X as <- <-; split; [exact K|eauto]|apply A; exact I]. Qed.

  Ltac texts := unfold ptrObj, obj, arr, member; cbn [map sep fst snd]; literals; repeat first [rewrite <- app_assoc | rewrite app_nil_r | progress cbn [app]]; reflexivity.
  Ltac some E v := match type of E with obind ?a _ = Some _ => destruct a as [v|] eqn:?; cbn [obind] in E; [|discriminate E] end.

  Lemma pointer_good elem : goodEnc elem -> (forall p, byteAt p <> None -> 0 <= p <= 18446744073709551615) -> goodEnc (pointerEncoder byteAt elem).
  Proof.
    intros G Addr ptr m space m' out E. unfold pointerEncoder in E. some E ptrStr. some E p. some E r. destruct r as [m1 text]. injection E as <- <-.
    destruct (G p _ _ _ _ Heqo1) as (t & j & added & T & V & -> & X & O). cbn [app] in T. subst t.
    assert (A : addrText ptrStr). { eapply ptr_text; [|eassumption]. apply Addr. unfold ptrAt in Heqo0. cbn [le] in Heqo0. destruct (byteAt ptr); [discriminate|discriminate Heqo0]. }
    exists (ptrObj ptrStr), (JObj [(bs "__ptr__", JStr ptrStr)]), ((ptrStr, text) :: added). split; [|split; [apply ptrObj_text, A|split; [reflexivity|split]]].
    - unfold ptrObj, obj, member. cbn [map sep fst snd app bs]. rewrite <- !app_assoc. reflexivity.
    - apply (explained_ptr _ _ text). right. left. reflexivity.
    - eapply okEntries_put; [apply (okEntries_more _ added [(ptrStr, text)]); exact O|exact A|exact V|apply explained_put; exact X].
  Qed.

  Definition Good (m : amap) (space : bytes) (m' : amap) (out : bytes) : Prop := exists t j added, out = space ++ t /\ valueText t j /\ m' = added ++ m /\ explained m' j /\ okEntries m' added.
  Lemma good_is e ptr : goodAt e ptr <-> forall m space m' out, e m space ptr = Some (m', out) -> Good m space m' out.
  Proof. reflexivity. Qed.
  (** The address [s] of [p] is nil's or has an entry *)
  Definition known (m : amap) (p : Z) (s : bytes) : Prop := addrText s /\ (s = bs "0" \/ exists x, In (s, x) m).
  Lemma known_more added m p s : known m p s -> known (added ++ m) p s.
  Proof. intros [A [X|(x & X)]]; split; auto. right. exists x. apply in_or_app. right. exact X. Qed.
  Lemma known_nil m s : ptrToStr 0 = Some s -> known m 0 s.
  Proof. intros E. split; [eapply ptr_text; [|exact E]; lia|]. left. apply ptr_zero. exact E. Qed.
  Lemma ptr_explained m p s : known m p s -> valueText (ptrObj s) (JObj [(bs "__ptr__", JStr s)]) /\ explained m (JObj [(bs "__ptr__", JStr s)]).
  Proof. intros [A K]. split; [apply ptrObj_text, A|]. destruct K as [K|(x & K)]; [apply (explained_ptr _ _ []); left; exact K|apply (explained_ptr _ _ x); right; exact K]. Qed.

  Lemma two_length {A B} (R : A -> B -> Prop) l l' : Forall2 R l l' -> List.length l = List.length l'.
  Proof. induction 1; cbn; congruence. Qed.
  (** An object of several members, all explained *)
  Lemma obj_explained m' l js : Forall (fun p => plainKey (fst p)) l -> Forall2 (fun p j => valueText (snd p) j /\ explained m' j) l js -> (1 < List.length l)%nat ->
    valueText (obj l) (JObj (combine (map fst l) js)) /\ explained m' (JObj (combine (map fst l) js)).
  Proof.
    intros K F L. split.
    - apply obj_text; [exact K|]. clear K L. induction F as [|? ? ? ? [V _] F IH]; constructor; assumption.
    - apply explained_obj.
      + intros s X. apply (f_equal (@List.length _)) in X. rewrite combine_length, map_length, <- (two_length _ _ _ F) in X. cbn in X. lia.
      + intros k j I. apply in_combine_r in I. clear K L. induction F as [|? ? ? ? [_ E] F IH]; [destruct I|]. destruct I as [<-|I]; [exact E|exact (IH I)].
  Qed.

  (** Numbers *)
  Lemma int_out space v out : - 2 ^ 63 <= v < 2 ^ 63 -> WriteInt64 space v = Some out -> exists t, out = space ++ t /\ valueText t (JNum t).
  Proof. intros R E. destruct (C01_int64 space v R) as (t & X & C). rewrite X in E. injection E as <-. exists t. split; [reflexivity|eapply num_valueText; exact C]. Qed.
  Lemma uint8_out space v out : 0 <= v < 256 -> WriteUint8 space v = Some out -> exists t, out = space ++ t /\ valueText t (JNum t).
  Proof. intros R E. destruct (C01_uint8 space v R) as (t & X & C). rewrite X in E. injection E as <-. exists t. split; [reflexivity|eapply num_valueText; exact C]. Qed.
  Lemma uint16_out space v out : 0 <= v < 2 ^ 16 -> WriteUint16 space v = Some out -> exists t, out = space ++ t /\ valueText t (JNum t).
  Proof. intros R E. destruct (C01_uint16 space v R) as (t & X & C). rewrite X in E. injection E as <-. exists t. split; [reflexivity|eapply num_valueText; exact C]. Qed.
  Lemma uint32_out space v out : 0 <= v < 2 ^ 32 -> WriteUint32 space v = Some out -> exists t, out = space ++ t /\ valueText t (JNum t).
  Proof.
    intros R E. assert (A : exists w, appends_text (WriteUint32 space v) space w).
    { destruct (Z_lt_ge_dec v (10 ^ 9)) as [L|L]; [exists v; apply C02_uint32_exact_iff; assumption|exists (v / 10 ^ 6); apply C02_uint32_truncates; lia]. }
    destruct A as (w & t & X & C). rewrite X in E. injection E as <-. exists t. split; [reflexivity|eapply num_valueText; exact C].
  Qed.
  Lemma uint64_out space v out : 0 <= v < 10 ^ 19 -> WriteUint64 space v = Some out -> exists t, out = space ++ t /\ valueText t (JNum t).
  Proof. intros R E. destruct (proj2 (C03_uint64_exact_iff space v ltac:(lia)) ltac:(lia)) as (t & X & C). rewrite X in E. injection E as <-. exists t. split; [reflexivity|eapply num_valueText; exact C]. Qed.

  (** ** Slices *)
  Lemma sep_tail ts : sep false ts = List.concat (map (cons 44) ts).
  Proof. induction ts as [|t ts IH]; [reflexivity|]. cbn [sep map List.concat app]. rewrite IH. reflexivity. Qed.
  Lemma data_good elem size (G : goodEnc elem) n : forall first m space offset m' out, dataLoop elem size n first m space offset = Some (m', out) ->
    exists ts js added, out = space ++ sep first ts /\ List.length ts = n /\ Forall2 valueText ts js /\ m' = added ++ m /\ Forall (explained m') js /\ okEntries m' added.
  Proof.
    induction n as [|n IH]; intros first m space offset m' out E; cbn [dataLoop] in E.
    - injection E as <- <-. exists [], [], []. cbn [sep]. rewrite app_nil_r. split; [reflexivity|]. split; [reflexivity|]. split; [constructor|]. split; [reflexivity|]. split; [constructor|]. intros k x [].
    - some E r. destruct r as [m1 o1]. destruct (G _ _ _ _ _ Heqo) as (t & j & a1 & -> & V & -> & X1 & O1).
      destruct (IH _ _ _ _ _ _ E) as (ts & js & a2 & -> & L & F & -> & X2 & O2). exists (t :: ts), (j :: js), (a2 ++ a1). cbn [sep]. split; [|split; [cbn; congruence|split; [constructor; assumption|split; [apply app_assoc|split]]]].
      + destruct first; cbn [app bs]; rewrite <- ?app_assoc; reflexivity.
      + constructor; [apply explained_more; exact X1|exact X2].
      + apply okEntries_app; [exact O2|apply okEntries_more; exact O1].
  Qed.
  Lemma encodeData_good elem size : goodEnc elem -> goodEnc (encodeData byteAt elem size).
  Proof.
    intros G ptr m space m' out E. unfold encodeData in E. some E data. some E len. some E r. destruct r as [m1 o1]. injection E as <- <-.
    destruct (data_good _ _ G _ _ _ _ _ _ _ Heqo1) as (ts & js & added & -> & _ & F & -> & X & O). exists (arr ts), (JArr js), added.
    split; [unfold arr; cbn [bs app]; rewrite <- !app_assoc; reflexivity|]. split; [apply arr_text; exact F|]. split; [reflexivity|]. split; [|exact O].
    apply explained_arr. rewrite Forall_forall in X. exact X.
  Qed.
  Lemma entry_good m s text added jx : addrText s -> valueText text jx -> explained (added ++ m) jx -> okEntries (added ++ m) added ->
    okEntries (put s text (added ++ m)) ((s, text) :: added).
  Proof. intros A V X O. eapply okEntries_put; [apply (okEntries_more _ added [(s, text)]); exact O|exact A|exact V|apply explained_put; exact X]. Qed.
  (** The entry for what an address leads to, if it is not nil *)
  Lemma store_good m m1 text data s : Good m [] m1 text -> 0 <= data <= 18446744073709551615 -> ptrToStr data = Some s ->
    exists added, (if data =? 0 then m1 else put s text m1) = added ++ m /\ okEntries (added ++ m) added /\ known (added ++ m) data s.
  Proof.
    intros (t & j & added & -> & V & -> & X & O) R P. cbn [app] in *. pose proof (ptr_text _ _ R P) as A. destruct (data =? 0) eqn:Z0.
    - exists added. split; [reflexivity|]. split; [exact O|]. apply Z.eqb_eq in Z0. subst data. apply known_nil. exact P.
    - exists ((s, t) :: added). split; [reflexivity|]. split; [apply (entry_good _ _ _ _ _ A V X O)|]. split; [exact A|]. right. exists t. left. reflexivity.
  Qed.

  Lemma slice_good elem size : goodEnc elem -> goodEnc (sliceEncoder byteAt elem size).
  Proof.
    intros G ptr m space m' out E. unfold sliceEncoder in E. some E data. some E len. some E cap. some E ptrStr. some E s1. some E s2. some E r. destruct r as [m1 text]. injection E as <- <-.
    apply encodeData_good in Heqo5; [|exact G]. apply ptr_range in Heqo. destruct (store_good _ _ _ _ _ Heqo5 Heqo Heqo2) as (added & Em & O & K).
    apply int_out in Heqo3; [|eapply int_range_at; exact Heqo0]. destruct Heqo3 as (tl & -> & Vl). apply int_out in Heqo4; [|eapply int_range_at; exact Heqo1]. destruct Heqo4 as (tc & -> & Vc).
    destruct (ptr_explained _ _ _ K) as [Vp Xp]. rewrite Em.
    pose (l := [(bs "data", ptrObj ptrStr); (bs "len", tl); (bs "cap", tc)]). pose (js := [JObj [(bs "__ptr__", JStr ptrStr)]; JNum tl; JNum tc]).
    destruct (obj_explained (added ++ m) l js) as [V X]; [unfold l; repeat (constructor; [apply plain_lit; reflexivity|]); constructor| |cbn; lia|].
    { unfold l, js. constructor; [split; assumption|]. constructor; [split; [exact Vl|apply explained_num]|]. constructor; [split; [exact Vc|apply explained_num]|constructor]. }
    exists (obj l), (JObj (combine (map fst l) js)), added. split; [|auto].
    unfold l. texts.
  Qed.

  Ltac keys := repeat (constructor; [apply plain_lit; reflexivity|]); constructor.
  Lemma string_good : goodEnc (stringEncoder byteAt).
  Proof.
    intros ptr m space m' out E. unfold stringEncoder in E. some E data. some E len. some E ptrStr. some E s1. some E s. injection E as <- <-.
    apply bytes_range in Heqo3. destruct (WriteString_decodes [] s Heqo3) as (t & u & W & D). destruct (reads_str t u (fun r => proj1 (D r))) as [Rt St].
    assert (G : Good m [] m (WriteString [] s)). { exists t, (JStr u), []. split; [exact W|]. split; [split; [exact St|eauto]|]. split; [reflexivity|]. split; [apply explained_str|intros k x []]. }
    apply ptr_range in Heqo. destruct (store_good _ _ _ _ _ G Heqo Heqo1) as (added & Em & O & K). apply int_out in Heqo2; [|eapply int_range_at; exact Heqo0]. destruct Heqo2 as (tl & -> & Vl).
    destruct (ptr_explained _ _ _ K) as [Vp Xp]. rewrite Em. pose (l := [(bs "data", ptrObj ptrStr); (bs "len", tl)]). pose (js := [JObj [(bs "__ptr__", JStr ptrStr)]; JNum tl]).
    destruct (obj_explained (added ++ m) l js) as [V X]; [unfold l; keys| |cbn; lia|].
    { unfold l, js. constructor; [split; assumption|]. constructor; [split; [exact Vl|apply explained_num]|constructor]. }
    exists (obj l), (JObj (combine (map fst l) js)), added. split; [|auto]. unfold l. texts.
  Qed.

  Lemma eface_good typeString dumperOf : (forall p s, typeString p = Some s -> plainKey s) -> (forall p, goodEnc (dumperOf p)) -> goodEnc (efaceEncoder byteAt typeString dumperOf).
  Proof.
    intros N G ptr m space m' out E. unfold efaceEncoder in E. some E dt. some E data. some E name. some E ptrStr. some E r. destruct r as [m1 text]. injection E as <- <-.
    destruct (G _ _ _ _ _ _ Heqo3) as (t & j & added & T & V & -> & X & O). cbn [app] in T. subst t. apply ptr_range in Heqo0. pose proof (ptr_text _ _ Heqo0 Heqo2) as A.
    assert (K : known (put ptrStr text (added ++ m)) data ptrStr) by (split; [exact A|right; exists text; left; reflexivity]). destruct (ptr_explained _ _ _ K) as [Vp Xp].
    pose (l := [(bs "type", [34] ++ name ++ [34]); (bs "data", ptrObj ptrStr)]). pose (js := [JStr name; JObj [(bs "__ptr__", JStr ptrStr)]]).
    destruct (obj_explained (put ptrStr text (added ++ m)) l js) as [Vo Xo]; [unfold l; keys| |cbn; lia|].
    { unfold l, js. constructor; [split; [apply str_text; eapply N; eassumption|apply explained_str]|]. constructor; [split; assumption|constructor]. }
    exists (obj l), (JObj (combine (map fst l) js)), ((ptrStr, text) :: added). split; [unfold l; texts|]. split; [exact Vo|]. split; [reflexivity|]. split; [exact Xo|].
    apply (entry_good _ _ _ _ _ A V X O).
  Qed.

  (** ** Maps *)
  Lemma tophash_good n : forall first space ptr out, tophashLoop byteAt n first space ptr = Some out -> exists ts, out = space ++ sep first ts /\ List.length ts = n /\ Forall2 valueText ts (map JNum ts).
  Proof.
    induction n as [|n IH]; intros first space ptr out E; cbn [tophashLoop] in E; [injection E as <-; exists []; cbn [sep]; rewrite app_nil_r; split; [reflexivity|]; split; [reflexivity|constructor]|].
    some E b. some E s1. apply uint8_out in Heqo0; [|eapply byte_range; exact Heqo]. destruct Heqo0 as (t & -> & V). destruct (IH _ _ _ _ E) as (ts & -> & L & F). exists (t :: ts).
    cbn [sep map]. split; [|split; [cbn; congruence|constructor; assumption]]. destruct first; literals; cbn [app]; rewrite <- ?app_assoc; reflexivity.
  Qed.
  Lemma some_pair {A B} (a c : A) (b d : B) : Some (a, b) = Some (c, d) -> a = c /\ b = d.
  Proof. intros E. split; congruence. Qed.
  Section Map.
    Variable keysEncoder elemsEncoder : enc.
    Variable keySize elemSize : Z.
    Hypothesis keys_good : goodEnc keysEncoder.
    Hypothesis elems_good : goodEnc elemsEncoder.
    Lemma bucket_good fuel : goodEnc (encodeBucket byteAt keysEncoder elemsEncoder keySize elemSize fuel).
    Proof.
      induction fuel as [|fuel IH]; intros ptr m space m' out E; cbn [encodeBucket] in E; [discriminate|]. some E s1. some E r. destruct r as [m1 s2]. some E r. destruct r as [m2 s3]. some E op. some E ops.
      destruct (tophash_good _ _ _ _ _ Heqo) as (ts & -> & _ & F). destruct (keys_good _ _ _ _ _ Heqo0) as (tk & jk & a1 & -> & Vk & -> & Xk & Ok).
      destruct (elems_good _ _ _ _ _ Heqo1) as (te & je & a2 & -> & Ve & -> & Xe & Oe). apply ptr_range in Heqo2.
      assert (St : exists added, m' = added ++ a2 ++ a1 ++ m /\ okEntries m' added /\ known m' op ops /\ out = ((((space ++ bs "{""tophash"":") ++ bs "[") ++ sep true ts) ++ bs "]" ++ bs ",""keys"":") ++ tk ++ bs ",""elems"":" ++ te ++ bs ",""overflow"":{""__ptr__"":""" ++ ops ++ bs """}}").
      { destruct (op =? 0) eqn:Z0.
        - injection E as <- <-. exists []. split; [reflexivity|]. split; [intros k x []|]. split; [apply Z.eqb_eq in Z0; subst op; apply known_nil; exact Heqo3|]. rewrite <- !app_assoc. reflexivity.
        - some E r. destruct r as [m3 ov]. injection E as <- <-. destruct (store_good _ _ _ _ _ (IH _ _ _ _ _ Heqo4) Heqo2 Heqo3) as (added & Em & O & K). rewrite Z0 in Em. exists added. rewrite Em.
          split; [reflexivity|]. split; [exact O|]. split; [exact K|]. rewrite <- !app_assoc. reflexivity. }
      destruct St as (a3 & -> & O3 & K & ->). destruct (ptr_explained _ _ _ K) as [Vp Xp].
      pose (l := [(bs "tophash", arr ts); (bs "keys", tk); (bs "elems", te); (bs "overflow", ptrObj ops)]). pose (js := [JArr (map JNum ts); jk; je; JObj [(bs "__ptr__", JStr ops)]]).
      destruct (obj_explained (a3 ++ a2 ++ a1 ++ m) l js) as [V X]; [unfold l; keys| |cbn; lia|].
      { unfold l, js. constructor; [split; [apply arr_text; exact F|apply explained_arr; intros j I; apply in_map_iff in I; destruct I as (t & <- & _); apply explained_num]|].
        constructor; [split; [exact Vk|apply explained_more, explained_more; exact Xk]|]. constructor; [split; [exact Ve|apply explained_more; exact Xe]|]. constructor; [split; assumption|constructor]. }
      exists (obj l), (JObj (combine (map fst l) js)), (a3 ++ a2 ++ a1). split; [unfold l; texts|]. split; [exact V|]. split; [rewrite <- !app_assoc; reflexivity|]. split; [exact X|].
      apply okEntries_app; [exact O3|]. apply okEntries_app; [apply okEntries_more; exact Oe|]. apply okEntries_more, okEntries_more. exact Ok.
    Qed.
    Definition spaced (first : bool) (ts : list bytes) : bytes := if first then sep true (match ts with [] => [] | t :: l => t :: map (cons 32) l end) else sep false (map (cons 32) ts).
    Lemma spaced_cons first t ts : spaced first (t :: ts) = (if first then [] else bs ", ") ++ t ++ spaced false ts.
    Proof. destruct first; reflexivity. Qed.
    Lemma buckets_good fuel n : forall first m space cursor m' out, bucketsLoop byteAt keysEncoder elemsEncoder keySize elemSize fuel n first m space cursor = Some (m', out) ->
      exists ts js added, out = space ++ spaced first ts /\ List.length ts = n /\ Forall2 valueText ts js /\ m' = added ++ m /\ Forall (explained m') js /\ okEntries m' added.
    Proof.
      induction n as [|n IH]; intros first m space cursor m' out E; cbn [bucketsLoop] in E.
      - injection E as <- <-. exists [], [], []. split; [destruct first; cbn; rewrite app_nil_r; reflexivity|]. split; [reflexivity|]. split; [constructor|]. split; [reflexivity|]. split; [constructor|]. intros k x [].
      - some E r. destruct r as [m1 o1]. destruct (bucket_good _ _ _ _ _ _ Heqo) as (t & j & a1 & -> & V & -> & X1 & O1).
        destruct (IH _ _ _ _ _ _ E) as (ts & js & a2 & -> & L & F & -> & X2 & O2). exists (t :: ts), (j :: js), (a2 ++ a1). rewrite spaced_cons.
        split; [destruct first; rewrite <- ?app_assoc; reflexivity|]. split; [cbn; congruence|]. split; [constructor; assumption|]. split; [apply app_assoc|]. split.
        + constructor; [apply explained_more; exact X1|exact X2].
        + apply okEntries_app; [exact O2|apply okEntries_more; exact O1].
    Qed.
    Lemma encodeBuckets_good fuel count : goodEnc (encodeBuckets byteAt keysEncoder elemsEncoder keySize elemSize fuel count).
    Proof.
      intros ptr m space m' out E. unfold encodeBuckets in E. some E r. destruct r as [m1 o1]. injection E as <- <-. destruct (buckets_good _ _ _ _ _ _ _ _ Heqo) as (ts & js & added & -> & _ & F & -> & X & O).
      exists (arr2 ts), (JArr js), added. split; [unfold arr2, spaced; literals; rewrite <- !app_assoc; reflexivity|]. split; [apply arr2_text; exact F|]. split; [reflexivity|]. split; [|exact O].
      apply explained_arr. rewrite Forall_forall in X. exact X.
    Qed.
    Lemma bucketPtrs_good fuel n : forall first m space cursor m' out, bucketPtrLoop byteAt keysEncoder elemsEncoder keySize elemSize fuel n first m space cursor = Some (m', out) ->
      exists ts js added, out = space ++ spaced first ts /\ List.length ts = n /\ Forall2 valueText ts js /\ m' = added ++ m /\ Forall (explained m') js /\ okEntries m' added.
    Proof.
      induction n as [|n IH]; intros first m space cursor m' out E; cbn [bucketPtrLoop] in E.
      - injection E as <- <-. exists [], [], []. split; [destruct first; cbn; rewrite app_nil_r; reflexivity|]. split; [reflexivity|]. split; [constructor|]. split; [reflexivity|]. split; [constructor|]. intros k x [].
      - some E ep. some E eps. apply ptr_range in Heqo. assert (St : exists a1 sp, sp = (if first then space else space ++ bs ", ") ++ bs "{""__ptr__"":""" ++ eps ++ bs """}" /\ okEntries (a1 ++ m) a1 /\ known (a1 ++ m) ep eps /\
          bucketPtrLoop byteAt keysEncoder elemsEncoder keySize elemSize fuel n false (a1 ++ m) sp (cursor + 8) = Some (m', out)).
        { destruct (ep =? 0) eqn:Z0.
          - exists []. eexists. split; [reflexivity|]. split; [intros k x []|]. split; [apply Z.eqb_eq in Z0; subst ep; apply known_nil; exact Heqo0|exact E].
          - some E r. destruct r as [m1 ed]. destruct (store_good _ _ _ _ _ (bucket_good _ _ _ _ _ _ Heqo1) Heqo Heqo0) as (a1 & Em & O & K). rewrite Z0 in Em. exists a1. eexists. split; [reflexivity|]. split; [exact O|].
            split; [exact K|]. rewrite <- Em. exact E. }
        clear E. destruct St as (a1 & sp & -> & O1 & K & E). destruct (IH _ _ _ _ _ _ E) as (ts & js & a2 & -> & L & F & -> & X2 & O2). destruct (ptr_explained _ _ _ K) as [Vp Xp].
        exists (ptrObj eps :: ts), (JObj [(bs "__ptr__", JStr eps)] :: js), (a2 ++ a1). rewrite spaced_cons. split; [destruct first; texts|]. split; [cbn; congruence|]. split; [constructor; assumption|].
        split; [apply app_assoc|]. split; [constructor; [apply explained_more; exact Xp|exact X2]|]. apply okEntries_app; [exact O2|apply okEntries_more; exact O1].
    Qed.
    Lemma ptrSlice_good fuel : goodEnc (encodeBucketPtrSlice byteAt keysEncoder elemsEncoder keySize elemSize fuel).
    Proof.
      intros ptr m space m' out E. unfold encodeBucketPtrSlice in E. some E data. some E len. some E cap. some E ptrStr. some E s1. some E s2. some E r. destruct r as [m1 text]. apply some_pair in E. destruct E as [<- <-].
      destruct (bucketPtrs_good _ _ _ _ _ _ _ _ Heqo5) as (ts & js' & a1 & -> & _ & F & -> & X1 & O1).
      assert (G : Good m [] (a1 ++ m) ((bs "[" ++ spaced true ts) ++ bs "]")).
      { exists (arr2 ts), (JArr js'), a1. split; [unfold arr2, spaced; literals; rewrite <- !app_assoc; reflexivity|]. split; [apply arr2_text; exact F|]. split; [reflexivity|]. split; [|exact O1].
        apply explained_arr. rewrite Forall_forall in X1. exact X1. }
      apply ptr_range in Heqo. destruct (store_good _ _ _ _ _ G Heqo Heqo2) as (added & Em & O & K).
      apply int_out in Heqo3; [|eapply int_range_at; exact Heqo0]. destruct Heqo3 as (tl & -> & Vl). apply int_out in Heqo4; [|eapply int_range_at; exact Heqo1]. destruct Heqo4 as (tc & -> & Vc).
      destruct (ptr_explained _ _ _ K) as [Vp Xp]. rewrite Em.
      pose (l := [(bs "data", ptrObj ptrStr); (bs "len", tl); (bs "cap", tc)]). pose (js := [JObj [(bs "__ptr__", JStr ptrStr)]; JNum tl; JNum tc]).
      destruct (obj_explained (added ++ m) l js) as [V X]; [unfold l; keys| |cbn; lia|].
      { unfold l, js. constructor; [split; assumption|]. constructor; [split; [exact Vl|apply explained_num]|]. constructor; [split; [exact Vc|apply explained_num]|constructor]. }
      exists (obj l), (JObj (combine (map fst l) js)), added. split; [|auto]. unfold l. texts.
    Qed.
    Lemma follow_good e p s m m' : goodEnc e -> 0 <= p <= 18446744073709551615 -> ptrToStr p = Some s -> follow e p s m = Some m' ->
      exists added, m' = added ++ m /\ okEntries m' added /\ known m' p s.
    Proof.
      intros G R P E. unfold follow in E. destruct (p =? 0) eqn:Z0.
      - injection E as <-. exists []. split; [reflexivity|]. split; [intros k x []|]. apply Z.eqb_eq in Z0. subst p. apply known_nil. exact P.
      - some E r. destruct r as [m1 text]. injection E as <-. destruct (store_good _ _ _ _ _ (G _ _ _ _ _ Heqo) R P) as (added & Em & O & K). rewrite Z0 in Em. rewrite Em. eauto.
    Qed.
    Lemma extra_good fuel : goodEnc (encodeExtra byteAt keysEncoder elemsEncoder keySize elemSize fuel).
    Proof.
      intros ptr m space m' out E. unfold encodeExtra in E. some E o. some E oo. some E no. some E os. some E oos. some E nos. some E m1. some E m2. some E m3. injection E as <- <-.
      apply ptr_range in Heqo, Heqo0, Heqo1. destruct (follow_good _ _ _ _ _ (ptrSlice_good fuel) Heqo Heqo2 Heqo5) as (a1 & -> & O1 & K1).
      destruct (follow_good _ _ _ _ _ (ptrSlice_good fuel) Heqo0 Heqo3 Heqo6) as (a2 & -> & O2 & K2). destruct (follow_good _ _ _ _ _ (bucket_good fuel) Heqo1 Heqo4 Heqo7) as (a3 & -> & O3 & K3).
      destruct (ptr_explained _ _ _ (known_more a3 _ _ _ (known_more a2 _ _ _ K1))) as [V1 X1]. destruct (ptr_explained _ _ _ (known_more a3 _ _ _ K2)) as [V2 X2]. destruct (ptr_explained _ _ _ K3) as [V3 X3].
      pose (l := [(bs "overflow", ptrObj os); (bs "oldoverflow", ptrObj oos); (bs "nextOverflow", ptrObj nos)]).
      pose (js := [JObj [(bs "__ptr__", JStr os)]; JObj [(bs "__ptr__", JStr oos)]; JObj [(bs "__ptr__", JStr nos)]]).
      destruct (obj_explained (a3 ++ a2 ++ a1 ++ m) l js) as [V X]; [unfold l; keys| |cbn; lia|].
      { unfold l, js. constructor; [split; assumption|]. constructor; [split; assumption|]. constructor; [split; assumption|constructor]. }
      exists (obj l), (JObj (combine (map fst l) js)), (a3 ++ a2 ++ a1). split; [unfold l; texts|]. split; [exact V|]. split; [rewrite <- !app_assoc; reflexivity|]. split; [exact X|].
      apply okEntries_app; [exact O3|]. apply okEntries_app; [apply okEntries_more; exact O2|]. apply okEntries_more, okEntries_more. exact O1.
    Qed.
    Lemma map_good fuel ptr : fewEvacuated byteAt -> goodAt (mapEncoder byteAt keysEncoder elemsEncoder keySize elemSize fuel) ptr.
    Proof.
      intros NV m space m' out E. unfold mapEncoder in E. some E count. some E flags. some E B. some E noverflow. some E hash0. some E buckets. some E oldbuckets. some E nevacuate. some E extra.
      some E s1. some E s2. some E s3. some E s4. some E s5. some E bp. some E obp. some E s6. some E xp. some E m1. some E m2. some E m3. injection E as <- <-.
      specialize (NV ptr _ ltac:(intros i Hi; eapply hmap_read; eassumption) Heqo6).
      apply int_range_at in Heqo. apply int_out in Heqo8; [|exact Heqo]. destruct Heqo8 as (t1 & -> & V1). apply le_range in Heqo0. change (256 ^ Z.of_nat 1) with 256 in Heqo0.
      apply uint8_out in Heqo9; [|exact Heqo0]. destruct Heqo9 as (t2 & -> & V2). apply le_range in Heqo1. change (256 ^ Z.of_nat 1) with 256 in Heqo1.
      apply uint8_out in Heqo10; [|exact Heqo1]. destruct Heqo10 as (t3 & -> & V3). apply le_range in Heqo2. change (256 ^ Z.of_nat 2) with (2 ^ 16) in Heqo2.
      apply uint16_out in Heqo11; [|exact Heqo2]. destruct Heqo11 as (t4 & -> & V4). apply le_range in Heqo3. change (256 ^ Z.of_nat 4) with (2 ^ 32) in Heqo3.
      apply uint32_out in Heqo12; [|exact Heqo3]. destruct Heqo12 as (t5 & -> & V5). apply le_range in Heqo6.
      apply uint64_out in Heqo15; [|split; [apply Heqo6|exact NV]]. destruct Heqo15 as (t6 & -> & V6). apply ptr_range in Heqo4, Heqo5, Heqo7.
      destruct (follow_good _ _ _ _ _ (encodeBuckets_good _ _) Heqo4 Heqo13 Heqo17) as (a1 & -> & O1 & K1).
      destruct (follow_good _ _ _ _ _ (encodeBuckets_good _ _) Heqo5 Heqo14 Heqo18) as (a2 & -> & O2 & K2). destruct (follow_good _ _ _ _ _ (extra_good fuel) Heqo7 Heqo16 Heqo19) as (a3 & -> & O3 & K3).
      destruct (ptr_explained _ _ _ (known_more a3 _ _ _ (known_more a2 _ _ _ K1))) as [W1 X1]. destruct (ptr_explained _ _ _ (known_more a3 _ _ _ K2)) as [W2 X2]. destruct (ptr_explained _ _ _ K3) as [W3 X3].
      pose (l := [(bs "count", t1); (bs "flags", t2); (bs "B", t3); (bs "noverflow", t4); (bs "hash0", t5); (bs "buckets", ptrObj bp); (bs "oldbuckets", ptrObj obp); (bs "nevacuate", t6); (bs "extra", ptrObj xp)]).
      pose (js := [JNum t1; JNum t2; JNum t3; JNum t4; JNum t5; JObj [(bs "__ptr__", JStr bp)]; JObj [(bs "__ptr__", JStr obp)]; JNum t6; JObj [(bs "__ptr__", JStr xp)]]).
      destruct (obj_explained (a3 ++ a2 ++ a1 ++ m) l js) as [V X]; [unfold l; keys| |cbn; lia|].
      { unfold l, js. repeat (constructor; [split; [assumption|first [apply explained_num|assumption]]|]). constructor. }
      exists (obj l), (JObj (combine (map fst l) js)), (a3 ++ a2 ++ a1). split; [unfold l; texts|]. split; [exact V|]. split; [rewrite <- !app_assoc; reflexivity|]. split; [exact X|].
      apply okEntries_app; [exact O3|]. apply okEntries_app; [apply okEntries_more; exact O2|]. apply okEntries_more, okEntries_more. exact O1.
    Qed.
  End Map.

  (** ** Arrays and structs, and every type *)
  Lemma array_good elem size n : goodEnc elem -> goodEnc (arrayEncoder elem size n).
  Proof.
    intros G ptr m space m' out E. unfold arrayEncoder in E. some E r. destruct r as [m1 o1]. injection E as <- <-.
    destruct (data_good _ _ G _ _ _ _ _ _ _ Heqo) as (ts & js & added & -> & _ & F & -> & X & O). exists (arr ts), (JArr js), added.
    split; [unfold arr; cbn [bs app]; rewrite <- !app_assoc; reflexivity|]. split; [apply arr_text; exact F|]. split; [reflexivity|]. split; [|exact O].
    apply explained_arr. rewrite Forall_forall in X. exact X.
  Qed.
  Lemma onePtr_good box e : goodEnc e -> goodEnc (onePtr box e).
  Proof. intros G ptr m space m' out E. exact (G _ _ _ _ _ E). Qed.
  Definition fieldName (name : bytes) : Prop := plainKey name /\ name <> bs "__ptr__".
  Lemma fields_good fs : Forall (fun f => fieldName (fst (fst f)) /\ goodEnc (snd f)) fs -> forall first m space ptr m' out, structLoop fs first m space ptr = Some (m', out) ->
    exists l js added, out = space ++ sep first (map member l) /\ Forall (fun p => fieldName (fst p)) l /\ Forall2 (fun p j => valueText (snd p) j /\ explained m' j) l js /\ m' = added ++ m /\ okEntries m' added.
  Proof.
    induction 1 as [|[[name offset] e] fs [N G] Fs IH]; intros first m space ptr m' out E; cbn [structLoop] in E.
    - injection E as <- <-. exists [], [], []. split; [cbn; rewrite app_nil_r; reflexivity|]. split; [constructor|]. split; [constructor|]. split; [reflexivity|]. intros k x [].
    - cbn [fst snd] in N, G. some E r. destruct r as [m1 o1]. destruct (G _ _ _ _ _ Heqo) as (t & j & a1 & -> & V & -> & X1 & O1). destruct (IH _ _ _ _ _ _ E) as (l & js & a2 & -> & K & F & -> & O2).
      exists ((name, t) :: l), (j :: js), (a2 ++ a1). split; [destruct first; unfold member; cbn [map sep fst snd]; literals; cbn [app]; rewrite <- ?app_assoc; cbn [app]; rewrite <- ?app_assoc; cbn [app]; reflexivity|].
      split; [constructor; [exact N|exact K]|]. split; [constructor; [split; [exact V|apply explained_more; exact X1]|exact F]|]. split; [apply app_assoc|].
      apply okEntries_app; [exact O2|apply okEntries_more; exact O1].
  Qed.
  Lemma struct_good fs : Forall (fun f => fieldName (fst (fst f)) /\ goodEnc (snd f)) fs -> goodEnc (structEncoder fs).
  Proof.
    intros Fs ptr m space m' out E. unfold structEncoder in E. some E r. destruct r as [m1 o1]. injection E as <- <-.
    destruct (fields_good _ Fs _ _ _ _ _ _ Heqo) as (l & js & added & -> & K & F & -> & O). exists (obj l), (JObj (combine (map fst l) js)), added.
    split; [unfold obj; literals; cbn [app]; rewrite <- !app_assoc; reflexivity|]. split; [|split; [reflexivity|split; [|exact O]]].
    - apply obj_text; [eapply Forall_impl; [|exact K]; intros p [Pk _]; exact Pk|]. clear - F. induction F as [|? ? ? ? [V _] F IH]; constructor; [exact V|exact IH].
    - apply explained_obj.
      + intros s X. destruct l as [|p l]; [destruct js; discriminate X|]. destruct js as [|j js]; [discriminate X|]. cbn [map combine] in X. injection X as X1 _. inversion K as [|? ? [_ Nk] _]; subst. destruct Nk. exact X1.
      + intros k j I. apply in_combine_r in I. clear - F I. induction F as [|? ? ? ? [_ E] F IH]; [destruct I|]. destruct I as [<-|I]; [exact E|exact (IH I)].
  Qed.
  Section Typed.
    Variable box : amap -> bytes -> Z -> Z.
    Variable types : nat -> ty.
    Variable sizeOf : nat -> Z.
    Variable leaf : nat -> enc.
    Variable depth overflows : nat.
    Hypothesis addresses : forall p, byteAt p <> None -> 0 <= p <= 18446744073709551615.
    Hypothesis leaves_good : forall t, types t = TLeaf -> goodEnc (leaf t).
    Hypothesis names_good : forall t fs, types t = TStruct fs -> forall name offset u, In (name, offset, u) fs -> fieldName name.
    Hypothesis maps_good : forall t k u, types t = TMap k u -> fewEvacuated byteAt.
    Lemma wrap_good t e : goodEnc e -> goodEnc (wrap box types depth t e).
    Proof. intros G. unfold wrap. destruct (likePtr types depth t); [apply onePtr_good|]; exact G. Qed.
    Lemma fieldEncoders_good rec fs : (forall t e, rec t = Some e -> goodEnc e) -> (forall name offset u, In (name, offset, u) fs -> fieldName name) -> forall l, fieldEncoders rec fs = Some l ->
      Forall (fun f => fieldName (fst (fst f)) /\ goodEnc (snd f)) l.
    Proof.
      intros R. induction fs as [|[[name offset] t] fs IH]; intros N l E; cbn [fieldEncoders] in E; [injection E as <-; constructor|]. destruct name as [|c name].
      - apply IH; [intros; eapply N; right; eassumption|exact E].
      - some E e. some E l'. injection E as <-. constructor; [split; [eapply N; left; reflexivity|eapply R; exact Heqo]|]. apply IH; [intros; eapply N; right; eassumption|reflexivity].
    Qed.
    Lemma encoderOf_good fuel : forall t e, encoderOf byteAt box types sizeOf leaf depth overflows fuel t = Some e -> goodEnc e.
    Proof.
      induction fuel as [|fuel IH]; intros t e E; cbn [encoderOf] in E; [discriminate|]. destruct (types t) as [|u|u|k u|n u|fs|] eqn:T.
      - injection E as <-. apply string_good.
      - some E e1. injection E as <-. apply pointer_good; [apply wrap_good, (IH _ _ Heqo)|exact addresses].
      - some E e1. injection E as <-. apply slice_good, wrap_good, (IH _ _ Heqo).
      - some E e1. some E e2. injection E as <-. intros ptr. apply map_good; [apply array_good, (IH _ _ Heqo)|apply array_good, (IH _ _ Heqo0)|]. eapply maps_good. exact T.
      - some E e1. injection E as <-. apply array_good, (IH _ _ Heqo).
      - some E l. injection E as <-. apply struct_good. eapply fieldEncoders_good; [exact IH|eapply names_good; exact T|exact Heqo].
      - injection E as <-. apply leaves_good. exact T.
    Qed.
    Lemma dumperAt_good typeAt fuel p : goodEnc (dumperAt byteAt box types sizeOf leaf depth overflows typeAt fuel p).
    Proof.
      intros ptr m space m' out E. unfold dumperAt, EncoderOf in E. some E e. some Heqo e1. injection Heqo as <-. eapply wrap_good; [eapply encoderOf_good; exact Heqo0|exact E].
    Qed.
  End Typed.

  (** ** The document *)
  Lemma has_one k p : has k [p] = true <-> k = fst p.
  Proof. destruct p as [k' v]. cbn [has fst]. destruct (list_eq_dec Z.eq_dec k k'); split; intros; try assumption; try reflexivity; try discriminate; contradiction. Qed.
  Lemma entries_in m k x : In (k, x) (entries m) -> In (k, x) m.
  Proof.
    revert k x. induction m as [|[k v] m IH]; intros k' x I; cbn [entries] in I; [exact I|]. destruct I as [I|I]; [left; exact I|right]. apply filter_In in I. apply IH, I.
  Qed.
  Lemma entries_keys m k x : In (k, x) m -> In k (map fst (entries m)).
  Proof.
    revert k x. induction m as [|[k v] m IH]; intros k' x I; [destruct I|]. cbn [entries map fst]. destruct (list_eq_dec Z.eq_dec k' k) as [->|N]; [left; reflexivity|right].
    destruct I as [I|I]; [injection I as -> ->; contradiction|]. apply IH in I. apply in_map_iff in I. destruct I as ([a b] & <- & I). apply in_map_iff. exists (a, b). split; [reflexivity|]. apply filter_In. split; [exact I|].
    cbn [fst]. destruct (has a [(k, v)]) eqn:H; [apply has_one in H; cbn [fst] in *; contradiction|reflexivity].
  Qed.
  Lemma entries_nodup m : NoDup (map fst (entries m)).
  Proof.
    induction m as [|[k v] m IH]; [constructor|]. cbn [entries map fst]. constructor.
    - intros I. apply in_map_iff in I. destruct I as ([a b] & E & I). apply filter_In in I. destruct I as [_ I]. cbn [fst] in *. subst a. assert (has k [(k, v)] = true) as H by (apply has_one; reflexivity). rewrite H in I. discriminate.
    - clear - IH. induction (entries m) as [|p l IHl]; [constructor|]. cbn [map] in IH. inversion IH as [|? ? N D]; subst. cbn [filter]. destruct (negb (has (fst p) [(k, v)])); [|apply IHl; exact D].
      cbn [map]. constructor; [|apply IHl; exact D]. intros I. apply N. apply in_map_iff in I. destruct I as (q & E & I). apply filter_In in I. rewrite <- E. apply in_map. apply I.
  Qed.
  (** A key as it is written *)
  Definition goodKey (k : bytes) : Prop := Forall (fun b => 48 <= b <= 66) k \/ k = bs "__root__".
  Lemma key_string k : goodKey k -> exists t, (forall space, WriteString space k = space ++ t) /\ forall after, json_string (t ++ after) = Some (k, after).
  Proof. intros [A| ->]; [apply good_string_text, addr_key; exact A|]. apply good_string_text. split; [repeat (constructor; [split; [discriminate|reflexivity]|]); constructor|]. intros (p & c & E & _ & M).
    assert (c = 95). { apply (f_equal (fun l => last l 0)) in E. rewrite last_last in E. vm_compute in E. symmetry. exact E. } subst c. destruct M as [M|[M|M]]; discriminate M. Qed.
  Lemma raw_good l js n : Forall (fun p => goodKey (fst p)) l -> Forall2 (fun p j => reads n (snd p) j) l js -> forall first space, exists ts,
    rawLoop first space l = space ++ sep first ts /\ Forall2 (reads_member n) ts (combine (map fst l) js).
  Proof.
    intros K F. revert K. induction F as [|[k v] j l js R F IH]; intros K first space; cbn [rawLoop].
    - exists []. cbn. rewrite app_nil_r. split; [reflexivity|constructor].
    - inversion K as [|? ? K1 K2]; subst. cbn [fst snd] in *. destruct (key_string k K1) as (t & W & J). rewrite W. match goal with |- context [rawLoop false ?sp l] => destruct (IH K2 false sp) as (ts & -> & M) end.
      exists ((t ++ 58 :: v) :: ts). split; [destruct first; literals; cbn [sep app]; rewrite <- ?app_assoc; cbn [app]; rewrite <- ?app_assoc; reflexivity|]. cbn [map combine]. constructor; [|exact M].
      exists t, v. split; [reflexivity|]. split; assumption.
  Qed.

  Lemma some_eq {A} (a b : A) : Some a = Some b -> a = b.
  Proof. congruence. Qed.
  Lemma valueText_unique t j j' : valueText t j -> valueText t j' -> j = j'.
  Proof.
    intros [_ [n R]] [_ [n' R']]. specialize (R [] I). specialize (R' [] I). rewrite app_nil_r in *.
    pose proof (value_mono_le n (Nat.max n n') _ _ ltac:(lia) R) as A. pose proof (value_mono_le n' (Nat.max n n') _ _ ltac:(lia) R') as B. congruence.
  Qed.
  Lemma choose_texts (m' : amap) l : Forall (fun p : bytes * bytes => exists j, valueText (snd p) j /\ explained m' j) l -> exists js, Forall2 (fun (p : bytes * bytes) j => valueText (snd p) j /\ explained m' j) l js.
  Proof. induction 1 as [|p l (j & H) F (js & IH)]; [exists []; constructor|]. exists (j :: js). constructor; assumption. Qed.
  Lemma common_fuel (m' : amap) l js : Forall2 (fun (p : bytes * bytes) j => valueText (snd p) j /\ explained m' j) l js -> exists n, Forall2 (fun (p : bytes * bytes) j => reads n (snd p) j) l js.
  Proof.
    induction 1 as [|p j l js [[_ [n R]] _] F (N & IH)]; [exists 0%nat; constructor|]. exists (Nat.max n N). constructor; [eapply reads_le; [|exact R]; lia|].
    clear - IH. induction IH; constructor; [|assumption]. eapply reads_le; [|eassumption]. lia.
  Qed.
  Lemma in_pairs (m' : amap) l js p : Forall2 (fun (p : bytes * bytes) j => valueText (snd p) j /\ explained m' j) l js -> In p l -> exists j, In (fst p, j) (combine (map fst l) js) /\ valueText (snd p) j.
  Proof.
    induction 1 as [|q j l js [V _] F IH]; intros I; [destruct I|]. cbn [map combine]. destruct I as [<-|I]; [exists j; split; [left; reflexivity|exact V]|]. destruct (IH I) as (j' & I' & V'). exists j'. split; [right; exact I'|exact V'].
  Qed.
  Lemma of_pairs (m' : amap) l js k j : Forall2 (fun (p : bytes * bytes) j => valueText (snd p) j /\ explained m' j) l js -> In (k, j) (combine (map fst l) js) -> explained m' j.
  Proof. induction 1 as [|q j' l js [_ X] F IH]; intros I; [destruct I|]. cbn [map combine] in I. destruct I as [E|I]; [injection E as _ <-; exact X|exact (IH I)]. Qed.
  Lemma keys_of_pairs {A B C} (R : A * C -> B -> Prop) (l : list (A * C)) js : Forall2 R l js -> map fst (combine (map fst l) js) = map fst l.
  Proof. induction 1; [reflexivity|]. cbn [map combine fst]. congruence. Qed.

  Lemma document typeString dumperOf order root out :
    (forall p s, typeString p = Some s -> plainKey s) -> (forall p, goodEnc (dumperOf p)) -> (forall l, Permutation (order l) l) ->
    VarString byteAt typeString dumperOf order root = Some out ->
    exists ms dt data name s text j m1, parses out (JObj ms) /\ NoDup (map fst ms) /\ ptrAt byteAt root = Some dt /\ typeString dt = Some name /\ ptrAt byteAt (root + 8) = Some data /\ ptrToStr data = Some s /\
      In (bs "__root__", JObj [(bs "type", JStr name); (bs "data", JObj [(bs "__ptr__", JStr s)])]) ms /\
      dumperOf dt [] [] data = Some (m1, text) /\ valueText text j /\ In (s, j) ms /\
      forall k v, In (k, v) ms -> forall s', shows v s' -> s' = bs "0" \/ In s' (map fst ms).
  Proof.
    intros N G P E. unfold VarString in E. some E r. destruct r as [m1 rootText]. apply some_eq in E. subst out. pose proof (eface_good typeString dumperOf N G _ _ _ _ _ Heqo) as (t & jr & added & T & V & Em & X & O).
    cbn [app] in T. subst t. rewrite app_nil_r in Em. subst added. set (m' := put (bs "__root__") rootText m1) in *.
    assert (All : Forall (fun p : bytes * bytes => exists j, valueText (snd p) j /\ explained m' j) (entries m')).
    { apply Forall_forall. intros [k x] I. apply entries_in in I. destruct I as [I|I]; [injection I as <- <-; exists jr; split; [exact V|apply explained_put; exact X]|].
      destruct (O _ _ I) as (_ & jx & Vx & Xx). exists jx. split; [exact Vx|apply explained_put; exact Xx]. }
    assert (Keys : Forall (fun p => goodKey (fst p)) (entries m')).
    { apply Forall_forall. intros [k x] I. apply entries_in in I. destruct I as [I|I]; [injection I as <- <-; right; reflexivity|]. left. apply (O _ _ I). }
    pose proof (P (entries m')) as Pe. set (l := order (entries m')) in *. apply Permutation_sym in Pe. eapply Permutation_Forall in All; [|exact Pe]. eapply Permutation_Forall in Keys; [|exact Pe].
    destruct (choose_texts _ _ All) as (js & F). destruct (common_fuel _ _ _ F) as (n & R). destruct (raw_good l js n Keys R true (bs "{")) as (ts & W & M). destruct (reads_object _ _ _ M) as (k & Rk).
    assert (KeysOf : map fst (combine (map fst l) js) = map fst l) by (eapply keys_of_pairs; exact F).
    assert (InKeys : forall k x, In (k, x) m' -> In k (map fst l)). { intros k' x I. apply entries_keys in I. eapply Permutation_in; [apply Permutation_map; exact Pe|exact I]. }
    unfold efaceEncoder in Heqo. some Heqo dt. some Heqo data. some Heqo name. some Heqo s. some Heqo r. destruct r as [m2 text]. destruct (G _ _ _ _ _ _ Heqo4) as (t & j & a & T & Vt & _ & _). cbn [app] in T. subst t.
    apply some_pair in Heqo. destruct Heqo as [Em Et]. pose proof (ptr_range _ _ Heqo1) as Rd. pose proof (ptr_text _ _ Rd Heqo3) as A.
    exists (combine (map fst l) js), dt, data, name, s, text, j, m2.
    split. { exists k, []. split; [|reflexivity]. specialize (Rk [] I). rewrite app_nil_r in Rk. rewrite W. rewrite <- app_assoc. exact Rk. }
    split. { rewrite KeysOf. eapply Permutation_NoDup; [apply Permutation_map; exact Pe|apply entries_nodup]. }
    split; [reflexivity|]. split; [exact Heqo2|]. split; [reflexivity|]. split; [exact Heqo3|].
    assert (NR : s <> bs "__root__"). { intros ->. inversion A as [|? ? Ar _]; subst. cbv beta in Ar. revert Ar. vm_compute. intros [_ Ar]. apply Ar. reflexivity. }
    split.
    { destruct (in_pairs _ _ _ (bs "__root__", rootText) F) as (jr' & Ir & Vr). { eapply Permutation_in; [exact Pe|]. left. reflexivity. } cbn [fst snd] in *.
      rewrite (valueText_unique _ _ _ Vr V) in Ir. enough (jr = JObj [(bs "type", JStr name); (bs "data", JObj [(bs "__ptr__", JStr s)])]) as <- by exact Ir. eapply valueText_unique; [exact V|].
      pose (lo := [(bs "type", [34] ++ name ++ [34]); (bs "data", ptrObj s)]). assert (Eo : rootText = obj lo) by (rewrite <- Et; unfold lo; texts). rewrite Eo.
      apply (obj_text lo [JStr name; JObj [(bs "__ptr__", JStr s)]]); [unfold lo; keys|]. unfold lo. cbn [map snd]. constructor; [apply str_text; eapply N; exact Heqo2|]. constructor; [apply ptrObj_text; exact A|constructor]. }
    split; [exact Heqo4|]. split; [exact Vt|]. split.
    { destruct (in_pairs _ _ _ (s, text) F) as (j' & Ij & Vj). { eapply Permutation_in; [exact Pe|]. unfold m', put. rewrite <- Em. cbn [entries put]. right. unfold put. cbn [entries]. cbn [filter].
        match goal with |- context [negb ?b] => assert (Hb : b = false) end. { match goal with |- ?b = false => destruct b eqn:Hb; [apply has_one in Hb; cbn [fst] in Hb; contradiction|reflexivity] end. }
        rewrite Hb. left. reflexivity. }
      cbn [fst snd] in *. rewrite (valueText_unique _ _ _ Vj Vt) in Ij. exact Ij. }
    intros k' v Ik s' Sh. destruct (of_pairs _ _ _ _ _ F Ik s' Sh) as [Z0|(x & Ix)]; [left; exact Z0|right]. rewrite KeysOf. eapply InKeys. exact Ix.
  Qed.
End Mem.
