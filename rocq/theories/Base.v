(** Common vocabulary: bytes, byte literals, option bind.  No Go code is modelled here. *)
From Coq Require Export ZArith List Lia Bool String Ascii.
Export ListNotations.
Open Scope Z_scope.
Open Scope list_scope.

(** Go's [byte], [rune], integers: [Z].  A byte string / []byte content: [list Z]. *)
Definition bytes := list Z.

Definition byte_ok (b : Z) : Prop := 0 <= b < 256.
Definition bytes_ok (s : bytes) : Prop := Forall byte_ok s.

(** [bs "abc"] is the byte string of a Coq string literal (used for readable literals). *)
Fixpoint bs (s : string) : bytes :=
  match s with
  | EmptyString => []
  | String c r => Z.of_nat (nat_of_ascii c) :: bs r
  end.

(** Index into a slice; [None] is Go's index-out-of-range panic. *)
Definition nthZ {A} (l : list A) (i : Z) : option A :=
  if i <? 0 then None else nth_error l (Z.to_nat i).

Definition obind {A B} (o : option A) (f : A -> option B) : option B :=
  match o with Some a => f a | None => None end.
Notation "'let?' x ':=' e 'in' k" := (obind e (fun x => k))
  (at level 200, x pattern, e at level 100, k at level 200, right associativity).

Definition lenZ {A} (l : list A) : Z := Z.of_nat (List.length l).

(** 0, 1, ..., n-1 as [Z]. *)
Definition zseq (n : nat) : list Z := map Z.of_nat (seq 0 n).

Lemma zseq_in : forall n i, 0 <= i < Z.of_nat n -> In i (zseq n).
Proof.
  intros n i H. unfold zseq. apply in_map_iff. exists (Z.to_nat i).
  split; [lia|]. apply in_seq. lia.
Qed.

(** A boolean property checked for 0..n-1 holds for every integer in the range. *)
Lemma forall_below : forall n (f : Z -> bool),
  forallb f (zseq n) = true -> forall i, 0 <= i < Z.of_nat n -> f i = true.
Proof.
  intros n f H i Hi. rewrite forallb_forall in H. apply H. now apply zseq_in.
Qed.

Lemma nthZ_zseq : forall n (f : Z -> Z) i, 0 <= i < Z.of_nat n ->
  nthZ (map f (zseq n)) i = Some (f i).
Proof.
  intros n f i H. unfold nthZ. destruct (i <? 0) eqn:E; [lia|].
  unfold zseq. rewrite map_map.
  replace i with (Z.of_nat (Z.to_nat i)) at 2 by lia.
  apply (map_nth_error (fun x => f (Z.of_nat x))).
  replace (Z.to_nat i) with (0 + Z.to_nat i)%nat at 2 by lia.
  rewrite nth_error_nth' with (d := 0%nat) by (rewrite seq_length; lia).
  rewrite seq_nth by lia. f_equal.
Qed.
