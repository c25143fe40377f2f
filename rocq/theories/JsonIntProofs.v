(** Lemmas about the integer writers. *)
From Verif Require Import Base DecimalSpec DecimalProofs JsonIntModel.

Lemma dm : forall v, 0 <= v ->
  v = v / 1000 * 1000 + (v - v / 1000 * 1000) /\ 0 <= v - v / 1000 * 1000 < 1000
  /\ 0 <= v / 1000 /\ v / 1000 * 1000 <= v.
Proof.
  intros v Hv. pose proof (Z.div_mod v 1000 ltac:(lia)). pose proof (Z.mod_pos_bound v 1000 ltac:(lia)).
  pose proof (Z.div_pos v 1000 Hv ltac:(lia)). lia.
Qed.

Ltac dm q v := let H := fresh "D" in
  pose proof (dm v ltac:(lia)) as H; fold q in H.

(** Boolean form of [canon_nat], for checking the 1000 table entries. *)
Definition canon_natb (t : bytes) (n : Z) : bool :=
  negb (lenZ t =? 0) && forallb is_digit t && (digits_value t =? n)
  && (implb (hd 0 t =? 48) (lenZ t =? 1)).

Lemma canon_natb_ok : forall t n, canon_natb t n = true -> canon_nat t n.
Proof.
  unfold canon_natb, canon_nat, lenZ. intros t n H.
  apply andb_true_iff in H as [H Hz]. apply andb_true_iff in H as [H Hv].
  apply andb_true_iff in H as [Hn Hd].
  repeat split; auto.
  - destruct t; [discriminate|congruence].
  - lia.
  - intros E. rewrite E in Hz. cbn [implb Z.eqb Pos.eqb] in Hz.
    apply Z.eqb_eq in Hz.
    destruct t as [|c [|]]; cbn [List.length hd] in *; try lia. subst; auto.
Qed.

Lemma table_first : forallb (fun i => canon_natb (writeFirstBuf [] (digits_entry i)) i) (zseq 1000) = true.
Proof. vm_compute. reflexivity. Qed.

Definition group3b (t : bytes) (n : Z) : bool :=
  (lenZ t =? 3) && forallb is_digit t && (digits_value t =? n).

Lemma table_buf : forallb (fun i => group3b (writeBuf [] (digits_entry i)) i) (zseq 1000) = true.
Proof. vm_compute. reflexivity. Qed.

Lemma writeFirstBuf_app : forall space v, writeFirstBuf space v = space ++ writeFirstBuf [] v.
Proof.
  intros. unfold writeFirstBuf. destruct (_ =? 0); [|destruct (_ =? 1)];
  repeat rewrite <- app_assoc; reflexivity.
Qed.

Lemma writeBuf_app : forall space v, writeBuf space v = space ++ writeBuf [] v.
Proof. reflexivity. Qed.

Lemma digits_at : forall i, 0 <= i < 1000 -> nthZ digits i = Some (digits_entry i).
Proof. intros. apply (nthZ_zseq 1000). lia. Qed.

Lemma first_canon : forall i, 0 <= i < 1000 -> canon_nat (writeFirstBuf [] (digits_entry i)) i.
Proof.
  intros. apply canon_natb_ok.
  apply (forall_below 1000 (fun i => canon_natb (writeFirstBuf [] (digits_entry i)) i) table_first). lia.
Qed.

Lemma buf_group : forall i, 0 <= i < 1000 ->
  List.length (writeBuf [] (digits_entry i)) = 3%nat /\
  forallb is_digit (writeBuf [] (digits_entry i)) = true /\
  digits_value (writeBuf [] (digits_entry i)) = i.
Proof.
  intros i Hi.
  pose proof (forall_below 1000 (fun i => group3b (writeBuf [] (digits_entry i)) i) table_buf i ltac:(lia)) as H.
  cbv beta in H. unfold group3b, lenZ in H.
  apply andb_true_iff in H as [H Hv]. apply andb_true_iff in H as [Hl Hd].
  repeat split; auto; lia.
Qed.

Lemma canon_buf : forall t n r, canon_nat t n -> 0 < n -> 0 <= r < 1000 ->
  canon_nat (t ++ writeBuf [] (digits_entry r)) (n * 1000 + r).
Proof.
  intros t n r C Hn Hr. destruct (buf_group r Hr) as (L & D & V).
  now apply canon_append3.
Qed.

Lemma canon_buf' : forall t n r m, canon_nat t n -> 0 < n -> 0 <= r < 1000 ->
  m = n * 1000 + r -> canon_nat (t ++ writeBuf [] (digits_entry r)) m.
Proof. intros; subst; now apply canon_buf. Qed.

(** What every writer establishes: the old bytes are kept, followed by the text of [n]. *)
Definition writes (out : option bytes) (space : bytes) (n : Z) : Prop :=
  exists t, out = Some (space ++ t) /\ canon_nat t n.

Lemma writes_first : forall space i, 0 <= i < 1000 ->
  writes (let? d := nthZ digits i in Some (writeFirstBuf space d)) space i.
Proof.
  intros. rewrite digits_at by lia. cbn [obind]. rewrite writeFirstBuf_app.
  eexists; split; [reflexivity|]. now apply first_canon.
Qed.

Lemma WriteUint8_ok : forall space v, 0 <= v < 256 -> writes (WriteUint8 space v) space v.
Proof. intros. apply writes_first. lia. Qed.

Lemma WriteUint16_ok : forall space v, 0 <= v < 65536 -> writes (WriteUint16 space v) space v.
Proof.
  intros space v Hv. unfold WriteUint16. pose proof (dm v ltac:(lia)).
  destruct (v / 1000 =? 0) eqn:E1; [apply writes_first; lia|].
  unfold u16. rewrite Z.mod_small by lia.
  rewrite !digits_at by lia. cbn [obind].
  rewrite writeBuf_app, writeFirstBuf_app, <- app_assoc.
  eexists; split; [reflexivity|].
  eapply canon_buf'; [apply first_canon| | |]; lia.
Qed.

Lemma WriteUint32_ok : forall space v, 0 <= v < 10^9 -> writes (WriteUint32 space v) space v.
Proof.
  intros space v Hv. unfold WriteUint32.
  set (q1 := v / 1000) in *. set (q2 := q1 / 1000) in *. set (q3 := q2 / 1000) in *.
  dm q1 v. dm q2 q1. dm q3 q2. clearbody q1 q2 q3.
  destruct (q1 =? 0) eqn:E1; [apply writes_first; lia|].
  unfold u32. rewrite (Z.mod_small (v - q1 * 1000)) by lia.
  destruct (q2 =? 0) eqn:E2.
  { rewrite !digits_at by lia. cbn [obind].
    rewrite writeBuf_app, writeFirstBuf_app, <- app_assoc.
    eexists; split; [reflexivity|].
    eapply canon_buf'; [apply first_canon| | |]; lia. }
  rewrite (Z.mod_small (q1 - q2 * 1000)) by lia.
  destruct (q3 =? 0) eqn:E3; [|lia].
  rewrite !digits_at by lia. cbn [obind].
  rewrite (writeBuf_app (writeBuf _ _)), (writeBuf_app (writeFirstBuf _ _)), writeFirstBuf_app, <- !app_assoc.
  rewrite (app_assoc (writeFirstBuf [] _)).
  eexists; split; [reflexivity|].
  apply canon_buf' with (n := q1); [|lia..].
  eapply canon_buf'; [apply first_canon| | |]; lia.
Qed.

Lemma WriteUint64_ok : forall space v, 0 <= v < 10^19 -> writes (WriteUint64 space v) space v.
Proof.
  intros space v Hv. unfold WriteUint64, u64.
  set (q1 := v / 1000) in *. set (q2 := q1 / 1000) in *. set (q3 := q2 / 1000) in *.
  set (q4 := q3 / 1000) in *. set (q5 := q4 / 1000) in *. set (q6 := q5 / 1000) in *.
  dm q1 v. dm q2 q1. dm q3 q2. dm q4 q3. dm q5 q4. dm q6 q5.
  clearbody q1 q2 q3 q4 q5 q6.
  destruct D as (A1 & R1 & P1 & _), D0 as (A2 & R2 & P2 & _), D1 as (A3 & R3 & P3 & _),
    D2 as (A4 & R4 & P4 & _), D3 as (A5 & R5 & P5 & _), D4 as (A6 & R6 & P6' & _).
  assert (P6 : 0 <= q6 < 10) by lia.
  rewrite !Z.mod_small by lia.
  destruct (q1 =? 0) eqn:E1; [apply writes_first; lia|].
  rewrite (digits_at (v - q1 * 1000)) by lia. cbn [obind].
  assert (F : forall sp t n r, writes (Some sp) space n -> 0 < n -> 0 <= r < 1000 ->
    t = writeBuf sp (digits_entry r) -> forall m, m = n * 1000 + r -> writes (Some t) space m).
  { intros sp t n r (u & E & C) Hn Hr -> m ->. injection E as ->.
    rewrite writeBuf_app, <- app_assoc. eexists; split; [reflexivity|]. now apply canon_buf. }
  assert (G : forall i, 0 <= i < 1000 -> writes (Some (writeFirstBuf space (digits_entry i))) space i).
  { intros i Hi. pose proof (writes_first space i Hi) as W. rewrite digits_at in W by lia. exact W. }
  destruct (q2 =? 0) eqn:E2.
  { rewrite digits_at by lia. cbn [obind]. eapply F; [apply G| | |reflexivity|exact A1]; lia. }
  rewrite (digits_at (q1 - q2 * 1000)) by lia. cbn [obind].
  destruct (q3 =? 0) eqn:E3.
  { rewrite digits_at by lia. cbn [obind]. eapply F; [|  | |reflexivity|exact A1]; [|lia|lia].
  eapply F; [apply G| | |reflexivity|exact A2]; lia. }
  rewrite (digits_at (q2 - q3 * 1000)) by lia. cbn [obind].
  destruct (q4 =? 0) eqn:E4.
  { rewrite digits_at by lia. cbn [obind]. eapply F; [|  | |reflexivity|exact A1]; [|lia|lia].
  eapply F; [|  | |reflexivity|exact A2]; [|lia|lia].
  eapply F; [apply G| | |reflexivity|exact A3]; lia. }
  rewrite (digits_at (q3 - q4 * 1000)) by lia. cbn [obind].
  destruct (q5 =? 0) eqn:E5.
  { rewrite digits_at by lia. cbn [obind]. eapply F; [|  | |reflexivity|exact A1]; [|lia|lia].
  eapply F; [|  | |reflexivity|exact A2]; [|lia|lia].
  eapply F; [|  | |reflexivity|exact A3]; [|lia|lia].
  eapply F; [apply G| | |reflexivity|exact A4]; lia. }
  rewrite (digits_at (q4 - q5 * 1000)) by lia. cbn [obind].
  assert (H : exists sp, (if q6 =? 0
      then let? dq := nthZ digits q5 in Some (writeFirstBuf space dq)
      else let? d6 := nthZ digits (q5 - q6 * 1000) in
           Some (writeBuf (space ++ [u8 (q6 + 48)]) d6)) = Some sp /\ writes (Some sp) space q5).
  { destruct (q6 =? 0) eqn:E6.
    - rewrite digits_at by lia. cbn [obind]. eexists; split; [reflexivity|]. apply G; lia.
    - rewrite digits_at by lia. cbn [obind]. eexists; split; [reflexivity|].
      eapply F; [| | |reflexivity|exact A6]; [|lia|lia].
      eexists; split; [reflexivity|].
      unfold u8. rewrite Z.mod_small by lia.
      repeat split; cbn; try congruence; try lia.
      + unfold is_digit. replace (48 <=? q6 + 48) with true by lia.
        replace (q6 + 48 <=? 57) with true by lia. reflexivity. }
  destruct H as (sp & -> & W). cbn [obind].
  eapply F; [|  | |reflexivity|exact A1]; [|lia|lia].
  eapply F; [|  | |reflexivity|exact A2]; [|lia|lia].
  eapply F; [|  | |reflexivity|exact A3]; [|lia|lia].
  eapply F; [|  | |reflexivity|exact A4]; [|lia|lia].
  eapply F; [exact W| | |reflexivity|exact A5]; lia.
Qed.

(** Signed writers, given the unsigned one on the magnitude. *)
Definition writes_int (out : option bytes) (space : bytes) (n : Z) : Prop :=
  exists t, out = Some (space ++ t) /\ canon_int t n.

Lemma writes_pos : forall out space n, writes out space n -> writes_int out space n.
Proof.
  intros out space n (t & E & C). exists t; split; auto. left.
  split; auto. eapply canon_nat_nonneg; eauto.
Qed.

Lemma writes_neg : forall out space n, n < 0 -> writes out (space ++ [45]) (- n) -> writes_int out space n.
Proof.
  intros out space n Hn (t & E & C). exists (45 :: t). split.
  - rewrite E, <- app_assoc. reflexivity.
  - right. split; auto. exists t. auto.
Qed.

Lemma wrap_neg : forall w n, 0 < w -> - 2^(w-1) <= n < 0 -> (wrap_signed w (- n)) mod 2^w = - n.
Proof.
  intros w n Hw Hn. unfold wrap_signed.
  assert (E : 2^w = 2 * 2^(w-1)).
  { rewrite <- Z.pow_succ_r by lia. f_equal. lia. }
  rewrite (Z.mod_small (- n)) by lia.
  destruct (_ <? _) eqn:L.
  - apply Z.mod_small. lia.
  - replace (- n - 2^w) with (- n + (-1) * 2^w) by lia.
    rewrite Z.mod_add by lia. apply Z.mod_small. lia.
Qed.

Lemma WriteInt8_ok : forall space v, -128 <= v < 128 -> writes_int (WriteInt8 space v) space v.
Proof.
  intros space v Hv. unfold WriteInt8, u8. destruct (v <? 0) eqn:E.
  - rewrite wrap_neg by lia. apply writes_neg; [lia|]. apply writes_first; lia.
  - rewrite Z.mod_small by lia. apply writes_pos, writes_first; lia.
Qed.

Lemma WriteInt16_ok : forall space v, -32768 <= v < 32768 -> writes_int (WriteInt16 space v) space v.
Proof.
  intros space v Hv. unfold WriteInt16, u16. destruct (v <? 0) eqn:E.
  - rewrite wrap_neg by lia. apply writes_neg; [lia|]. apply WriteUint16_ok; lia.
  - rewrite Z.mod_small by lia. apply writes_pos, WriteUint16_ok; lia.
Qed.

Lemma WriteInt32_ok : forall space v, - 10^9 < v < 10^9 -> writes_int (WriteInt32 space v) space v.
Proof.
  intros space v Hv. unfold WriteInt32, u32. destruct (v <? 0) eqn:E.
  - rewrite wrap_neg by lia. apply writes_neg; [lia|]. apply WriteUint32_ok; lia.
  - rewrite Z.mod_small by lia. apply writes_pos, WriteUint32_ok; lia.
Qed.

Lemma WriteInt64_ok : forall space v, - 2^63 <= v < 2^63 -> writes_int (WriteInt64 space v) space v.
Proof.
  intros space v Hv. unfold WriteInt64, u64. destruct (v <? 0) eqn:E.
  - rewrite wrap_neg by lia. apply writes_neg; [lia|]. apply WriteUint64_ok; lia.
  - rewrite Z.mod_small by lia. apply writes_pos, WriteUint64_ok; lia.
Qed.

(** Ten-digit values: only the first four digits come out. *)
Lemma WriteUint32_big : forall space v, 10^9 <= v < 2^32 ->
  exists t, WriteUint32 space v = Some (space ++ t) /\ canon_nat t (v / 10^6).
Proof.
  intros space v Hv. unfold WriteUint32, u32.
  set (q1 := v / 1000) in *. set (q2 := q1 / 1000) in *. set (q3 := q2 / 1000) in *.
  assert (E2 : q2 = v / 10^6).
  { unfold q2, q1. rewrite Z.div_div by lia. reflexivity. }
  dm q1 v. dm q2 q1. dm q3 q2. rewrite <- E2. clearbody q1 q2 q3.
  replace (q1 =? 0) with false by lia. replace (q2 =? 0) with false by lia.
  replace (q3 =? 0) with false by lia.
  rewrite (Z.mod_small (q2 - q3 * 1000)) by lia.
  rewrite digits_at by lia. cbn [obind].
  rewrite writeBuf_app, <- app_assoc.
  eexists; split; [reflexivity|]. destruct D1 as (A3 & R3 & _).
  assert (0 < q3 < 10) by lia.
  eapply canon_buf'; [| | |exact A3]; [|lia|lia]. unfold u8. rewrite Z.mod_small by lia.
  repeat split; cbn; try congruence; try lia.
  unfold is_digit. replace (48 <=? q3 + 48) with true by lia.
  replace (q3 + 48 <=? 57) with true by lia. reflexivity.
Qed.

Lemma writes_det : forall o s n m, writes o s n -> writes o s m -> n = m.
Proof.
  intros o s n m (t & E & C) (u & F & D). rewrite E in F. injection F as F.
  apply app_inv_head in F. subst u. destruct C as (_ & _ & C & _), D as (_ & _ & D & _). congruence.
Qed.

Lemma WriteUint32_bad : forall space v, 10^9 <= v < 2^32 -> ~ writes (WriteUint32 space v) space v.
Proof.
  intros space v Hv W. pose proof (WriteUint32_big space v Hv) as W'.
  pose proof (writes_det _ _ _ _ W W').
  pose proof (Z.div_lt v (10^6) ltac:(lia) ltac:(lia)). lia.
Qed.

Lemma WriteUint64_big : forall space v, 10^19 <= v < 2^64 ->
  exists c t, WriteUint64 space v = Some (space ++ c :: t) /\ c = v / 10^18 + 48.
Proof.
  intros space v Hv. unfold WriteUint64, u64.
  set (q1 := v / 1000) in *. set (q2 := q1 / 1000) in *. set (q3 := q2 / 1000) in *.
  set (q4 := q3 / 1000) in *. set (q5 := q4 / 1000) in *. set (q6 := q5 / 1000) in *.
  assert (E6 : q6 = v / 10^18).
  { unfold q6, q5, q4, q3, q2, q1. rewrite !Z.div_div by lia. reflexivity. }
  dm q1 v. dm q2 q1. dm q3 q2. dm q4 q3. dm q5 q4. dm q6 q5.
  rewrite <- E6.
  clearbody q1 q2 q3 q4 q5 q6.
  assert (10 <= q6 <= 18) by lia.
  replace (q1 =? 0) with false by lia. replace (q2 =? 0) with false by lia.
  replace (q3 =? 0) with false by lia. replace (q4 =? 0) with false by lia.
  replace (q5 =? 0) with false by lia. replace (q6 =? 0) with false by lia.
  rewrite !Z.mod_small by lia.
  rewrite !digits_at by lia. cbn [obind].
  unfold u8 at 1. rewrite Z.mod_small by lia.
  unfold writeBuf. rewrite <- !app_assoc. cbn [app]. eauto.
Qed.

Lemma WriteUint64_bad : forall space v, 10^19 <= v < 2^64 -> ~ writes (WriteUint64 space v) space v.
Proof.
  intros space v Hv (t & E & C).
  destruct (WriteUint64_big space v Hv) as (c & u & F & G).
  rewrite E in F. injection F as F. apply app_inv_head in F. subst t.
  destruct C as (_ & D & _). cbn [forallb] in D. apply andb_true_iff in D as [D _].
  unfold is_digit in D. apply andb_true_iff in D as [_ D].
  pose proof (Z.div_le_lower_bound v (10^18) 10 ltac:(lia) ltac:(lia)). lia.
Qed.

Lemma canon_int_det : forall t n m, canon_int t n -> canon_int t m -> n = m.
Proof.
  intros t n m [[A1 B1]|[A1 (u1 & -> & B1)]] [[A2 B2]|[A2 (u2 & E & B2)]].
  - destruct B1 as (_ & _ & <- & _), B2 as (_ & _ & <- & _). reflexivity.
  - subst t. destruct B1 as (_ & D & _). discriminate.
  - destruct B2 as (_ & D & _). discriminate.
  - injection E as ->. destruct B1 as (_ & _ & V1 & _), B2 as (_ & _ & V2 & _). lia.
Qed.

Lemma writes_int_det : forall o s n m, writes_int o s n -> writes_int o s m -> n = m.
Proof.
  intros o s n m (t & E & C) (u & F & D). rewrite E in F. injection F as F.
  apply app_inv_head in F. subst u. eapply canon_int_det; eauto.
Qed.

Lemma WriteInt32_big : forall space v, - 2^31 <= v < 2^31 -> 10^9 <= Z.abs v ->
  writes_int (WriteInt32 space v) space (Z.sgn v * (Z.abs v / 10^6)).
Proof.
  intros space v Hv Ha. unfold WriteInt32, u32. destruct (v <? 0) eqn:E.
  - rewrite wrap_neg by lia. rewrite Z.sgn_neg by lia.
    rewrite (Z.abs_neq v) in * by lia.
    pose proof (Z.div_le_lower_bound (- v) (10^6) 1 ltac:(lia) ltac:(lia)).
    apply writes_neg; [lia|].
    replace (- (-1 * (- v / 10^6))) with (- v / 10^6) by lia.
    apply WriteUint32_big. lia.
  - rewrite Z.mod_small by lia. rewrite Z.sgn_pos by lia.
    apply writes_pos. rewrite (Z.abs_eq v) in * by lia. rewrite Z.mul_1_l.
    apply WriteUint32_big. lia.
Qed.

Lemma WriteInt32_bad : forall space v, - 2^31 <= v < 2^31 -> 10^9 <= Z.abs v ->
  ~ writes_int (WriteInt32 space v) space v.
Proof.
  intros space v Hv Ha W. pose proof (WriteInt32_big space v Hv Ha) as W'.
  pose proof (writes_int_det _ _ _ _ W W').
  pose proof (Z.div_lt (Z.abs v) (10^6) ltac:(lia) ltac:(lia)).
  pose proof (Z.div_pos (Z.abs v) (10^6) ltac:(lia) ltac:(lia)).
  destruct (Z.sgn_spec v) as [[? E]|[[? E]|[? E]]]; rewrite E in *; lia.
Qed.

(** Unsigned values: integer text and natural text coincide. *)
Lemma writes_int_nonneg : forall o s n, 0 <= n -> writes_int o s n -> writes o s n.
Proof.
  intros o s n Hn (t & E & [[_ C]|[L _]]); [|lia]. exists t; auto.
Qed.

Lemma uint32_iff : forall space v, 0 <= v < 2^32 ->
  (writes_int (WriteUint32 space v) space v <-> v < 10^9).
Proof.
  intros space v Hv. split.
  - intros W. destruct (Z_lt_ge_dec v (10^9)); auto. exfalso.
    apply (WriteUint32_bad space v); [lia|]. apply writes_int_nonneg; auto; lia.
  - intros L. apply writes_pos, WriteUint32_ok. lia.
Qed.

Lemma int32_iff : forall space v, - 2^31 <= v < 2^31 ->
  (writes_int (WriteInt32 space v) space v <-> - 10^9 < v < 10^9).
Proof.
  intros space v Hv. split.
  - intros W. destruct (Z_lt_ge_dec (Z.abs v) (10^9)); [lia|]. exfalso.
    apply (WriteInt32_bad space v); auto; lia.
  - apply WriteInt32_ok.
Qed.

Lemma uint64_iff : forall space v, 0 <= v < 2^64 ->
  (writes_int (WriteUint64 space v) space v <-> v < 10^19).
Proof.
  intros space v Hv. split.
  - intros W. destruct (Z_lt_ge_dec v (10^19)); auto. exfalso.
    apply (WriteUint64_bad space v); [lia|]. apply writes_int_nonneg; auto; lia.
  - intros L. apply writes_pos, WriteUint64_ok. lia.
Qed.
