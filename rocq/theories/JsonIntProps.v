(** C01, C02, C03: decimal text of integers (msgfmt/jsonfmt/encoder_int.go). *)
From Verif Require Import Base DecimalSpec DecimalProofs JsonIntModel JsonIntProofs.

(** [appends_text out space n]: the call did not panic, kept the bytes already in the slice and
    appended exactly the canonical decimal text of [n] (specification: DecimalSpec.v). *)
Definition appends_text (out : option bytes) (space : bytes) (n : Z) : Prop :=
  exists t, out = Some (space ++ t) /\ canon_int t n.

(** The specification determines the text. *)
Theorem C01_text_unique : forall n t1 t2, canon_int t1 n -> canon_int t2 n -> t1 = t2.
Proof. exact canon_int_unique. Qed.
Print Assumptions C01_text_unique.

Theorem C01_uint8 : forall space v, 0 <= v < 2^8 -> appends_text (WriteUint8 space v) space v.
Proof. exact (fun s v H => writes_pos _ _ _ (WriteUint8_ok s v H)). Qed.
Print Assumptions C01_uint8.
Example C01_uint8_ex : WriteUint8 (bs "x=") 222 = Some (bs "x=222"). Proof. reflexivity. Qed.

Theorem C01_int8 : forall space v, - 2^7 <= v < 2^7 -> appends_text (WriteInt8 space v) space v.
Proof. exact WriteInt8_ok. Qed.
Print Assumptions C01_int8.
Example C01_int8_ex : WriteInt8 [] (-128) = Some (bs "-128"). Proof. reflexivity. Qed.

Theorem C01_uint16 : forall space v, 0 <= v < 2^16 -> appends_text (WriteUint16 space v) space v.
Proof. exact (fun s v H => writes_pos _ _ _ (WriteUint16_ok s v H)). Qed.
Print Assumptions C01_uint16.
Example C01_uint16_ex : WriteUint16 [] 60007 = Some (bs "60007"). Proof. reflexivity. Qed.

Theorem C01_int16 : forall space v, - 2^15 <= v < 2^15 -> appends_text (WriteInt16 space v) space v.
Proof. exact WriteInt16_ok. Qed.
Print Assumptions C01_int16.
Example C01_int16_ex : WriteInt16 [] (-32768) = Some (bs "-32768"). Proof. reflexivity. Qed.

Theorem C01_int64 : forall space v, - 2^63 <= v < 2^63 -> appends_text (WriteInt64 space v) space v.
Proof. exact WriteInt64_ok. Qed.
Print Assumptions C01_int64.
Example C01_int64_ex : WriteInt64 [] (- 2^63) = Some (bs "-9223372036854775808").
Proof. vm_compute. reflexivity. Qed.

(** C02, full claim: every 32-bit value.  It is false of the code. *)
Definition C02_full : Prop :=
  (forall space v, 0 <= v < 2^32 -> appends_text (WriteUint32 space v) space v) /\
  (forall space v, - 2^31 <= v < 2^31 -> appends_text (WriteInt32 space v) space v).

Theorem C02_uint32_refuted :
  exists v, 0 <= v < 2^32 /\ WriteUint32 [] v = Some (bs "4294") /\ v = 4294967295.
Proof. exists 4294967295. split; [lia|]. split; [vm_compute; reflexivity|reflexivity]. Qed.
Print Assumptions C02_uint32_refuted.

(** Exactly the values below 10^9 are printed correctly. *)
Theorem C02_uint32_exact_iff : forall space v, 0 <= v < 2^32 ->
  (appends_text (WriteUint32 space v) space v <-> v < 10^9).
Proof. exact uint32_iff. Qed.
Print Assumptions C02_uint32_exact_iff.
Example C02_uint32_ex : WriteUint32 [] 998123123 = Some (bs "998123123").
Proof. vm_compute. reflexivity. Qed.

Theorem C02_int32_exact_iff : forall space v, - 2^31 <= v < 2^31 ->
  (appends_text (WriteInt32 space v) space v <-> - 10^9 < v < 10^9).
Proof. exact int32_iff. Qed.
Print Assumptions C02_int32_exact_iff.
Example C02_int32_ex : WriteInt32 [] (-998123123) = Some (bs "-998123123").
Proof. vm_compute. reflexivity. Qed.

(** What comes out instead: the text of the value divided by 10^6. *)
Theorem C02_uint32_truncates : forall space v, 10^9 <= v < 2^32 ->
  appends_text (WriteUint32 space v) space (v / 10^6).
Proof. exact (fun s v H => writes_pos _ _ _ (WriteUint32_big s v H)). Qed.
Print Assumptions C02_uint32_truncates.

Theorem C02_full_refuted : ~ C02_full.
Proof.
  intros [F _]. apply (proj1 (C02_uint32_exact_iff [] (10^9) ltac:(lia))) in F; lia.
Qed.
Print Assumptions C02_full_refuted.

(** C03, full claim: every uint64.  It is false of the code. *)
Definition C03_full : Prop :=
  forall space v, 0 <= v < 2^64 -> appends_text (WriteUint64 space v) space v.

Theorem C03_uint64_refuted :
  exists v, 0 <= v < 2^64 /\ WriteUint64 [] v = Some (bs "B446744073709551615").
Proof. exists (2^64 - 1). split; [lia|vm_compute; reflexivity]. Qed.
Print Assumptions C03_uint64_refuted.

Theorem C03_full_refuted : ~ C03_full.
Proof. intros F. apply (proj1 (uint64_iff [] (10^19) ltac:(lia))) in F; lia. Qed.
Print Assumptions C03_full_refuted.

Theorem C03_uint64_exact_iff : forall space v, 0 <= v < 2^64 ->
  (appends_text (WriteUint64 space v) space v <-> v < 10^19).
Proof. exact uint64_iff. Qed.
Print Assumptions C03_uint64_exact_iff.
Example C03_uint64_ex : WriteUint64 [] 9999999999999999999 = Some (bs "9999999999999999999").
Proof. vm_compute. reflexivity. Qed.
