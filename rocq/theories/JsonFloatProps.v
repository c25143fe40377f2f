(** Property C06: text of floats written with six digits. *)
From Verif Require Import Base DecimalSpec JsonFloatModel JsonFloatProofs.
From Coq Require Import Reals Lra.
From Flocq Require Import Core IEEE754.Binary IEEE754.Bits.
Open Scope Z_scope.
Open Scope list_scope.

(** "[t] is a plain decimal number (JSON grammar: optional minus, integer part without leading zeros,
    optional fraction) with at most six fraction digits, the last of them not zero; its sign is [neg]
    and its magnitude is [q]". *)
Definition short_decimal (t : bytes) (neg : bool) (q : R) : Prop :=
  exists ip fp,
    t = (if neg then bs "-" else []) ++ ip ++ (match fp with [] => [] | _ => bs "." ++ fp end) /\
    canon_nat ip (digits_value ip) /\
    forallb is_digit fp = true /\ lenZ fp <= 6 /\ (fp <> [] -> last fp 0 <> 48) /\
    q = (IZR (digits_value ip) + IZR (digits_value fp) / IZR (10 ^ lenZ fp))%R.

Lemma short_decimal_of : forall t l (neg : bool), millionths_text t l ->
  short_decimal ((if neg then [45] else []) ++ t) neg (IZR l / 1000000).
Proof.
  intros t l neg (ip & fp & -> & C & D & L & La & V).
  exists ip, fp. split; [destruct neg, fp; reflexivity|].
  split; [destruct C as (C1 & C2 & C3 & C4); repeat split; auto|].
  split; auto. split; auto. split.
  - intros N. destruct (exists_last N) as (q & c & ->). rewrite last_last in *. auto.
  - now rewrite (millionths_value ip fp l).
Qed.

(** For every finite float64 of magnitude at most 0x4ffffff, whatever is already in the slice. *)
Theorem C06_float64 : forall formatFloat v,
  is_finite 53 1024 v = true -> (Rabs (B2R 53 1024 v) <= 83886079)%R ->
  exists t q, (forall space, WriteFloat64Lossy formatFloat space v = Some (space ++ t)) /\
    short_decimal t (Rlt_bool (B2R 53 1024 v) 0) q /\
    (Rabs (q - Rabs (B2R 53 1024 v)) <= (/ 2 + / 64) / 1000000)%R.
Proof.
  intros ff v F B. destruct (float64_main ff v F B) as (t & l & E & M & Err).
  eexists. exists (IZR l / 1000000)%R. split; [exact E|]. split; [now apply short_decimal_of|].
  apply Rabs_le_inv in Err. apply Rabs_le. lra.
Qed.
Print Assumptions C06_float64.
(** 12345678901 * 2^-30, about 11.4978089 *)
Example C06_float64_ex :
  WriteFloat64Lossy (fun _ => []) [] (f64 (-12345678901) (-30)) = Some (bs "-11.497809").
Proof. vm_compute. reflexivity. Qed.

Theorem C06_float32 : forall formatFloat v,
  is_finite 24 128 v = true -> (Rabs (B2R 24 128 v) <= 83886080)%R ->
  exists t q, (forall space, WriteFloat32Lossy formatFloat space v = Some (space ++ t)) /\
    short_decimal t (Rlt_bool (B2R 24 128 v) 0) q /\
    (Rabs (q - Rabs (B2R 24 128 v)) <= (/ 2 + / 64) / 1000000)%R.
Proof.
  intros ff v F B. destruct (float32_main ff v F B) as (t & l & E & M & Err).
  eexists. exists (IZR l / 1000000)%R. split; [exact E|]. split; [now apply short_decimal_of|].
  apply Rabs_le_inv in Err. apply Rabs_le. lra.
Qed.
Print Assumptions C06_float32.
Example C06_float32_ex : WriteFloat32Lossy (fun _ => []) [] (f32 3 (-20)) = Some (bs "0.000003").
Proof. vm_compute. reflexivity. Qed.
