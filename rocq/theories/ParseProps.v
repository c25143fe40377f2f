(** Properties C09-C18: the parse package. *)
From Verif Require Import Base DecimalSpec JsonStrSpec JsonIntModel ParseModel ParseSpec ParseProofs ParseReadProofs ParseExprProofs ParseSeqProofs.
Open Scope Z_scope.
Open Scope list_scope.

(** Reads that never return data together with an error. *)
Definition honest (reads : list (bytes * option err)) : Prop := Forall (fun p => snd p = None) reads.
Definition all_bytes (reads : list (bytes * option err)) : bytes := List.concat (map fst reads).
Definition cut (l : list bytes) : list (bytes * option err) := map (fun c => (c, None)) l.

(** * C09 *)

(** Full claim: a source can be made from every reader, and the loop readers and Error() cannot tell it
    from a source over the whole string; afterwards the same bytes are left.  It is false of the code. *)
Definition C09_full : Prop :=
  forall reads ops, honest reads -> Forall reader_op ops ->
  exists s v s' t', NewSource (mkReader reads EOF) = (Some s, None) /\
    perform_all ops s = Ok v s' /\ perform_all ops (NewSourceString (all_bytes reads)) = Ok v t' /\ remaining s' = remaining t'.

(** A reader whose first Read returns nothing (which io.Reader allows) gives a nil Source and a nil error. *)
Theorem C09_empty_first_read_refuted : forall reads fin,
  NewSource (mkReader (([], None) :: reads) fin) = (None, None).
Proof. reflexivity. Qed.
Print Assumptions C09_empty_first_read_refuted.

(** After an overflow the position depends on the cut. *)
Theorem C09_overflow_position_refuted : exists a b s t s' t',
  NewSource (mkReader (cut a) EOF) = (Some s, None) /\ NewSource (mkReader (cut b) EOF) = (Some t, None) /\
  List.concat a = List.concat b /\ Uint64 s = Ok 0 s' /\ Uint64 t = Ok 0 t' /\
  s_err s' = Some overflow64 /\ s_err t' = Some overflow64 /\ remaining s' <> remaining t'.
Proof.
  exists [bs "18446744073709551616x"], [bs "184467"; bs "44073709551616x"].
  do 4 eexists. split; [vm_compute; reflexivity|]. split; [vm_compute; reflexivity|]. split; [reflexivity|].
  split; [vm_compute; reflexivity|]. split; [vm_compute; reflexivity|]. split; [reflexivity|]. split; [reflexivity|]. discriminate.
Qed.
Print Assumptions C09_overflow_position_refuted.

(** A reader that returns its last bytes together with io.EOF, as io.Reader also allows, loses them. *)
Theorem C09_data_with_error_refuted : exists s s',
  NewSource (mkReader [(bs "1", None); (bs "2", Some EOF)] EOF) = (Some s, None) /\ Uint64 s = Ok 1 s' /\
  Uint64 (NewSourceString (bs "12")) <> Ok 1 s'.
Proof. do 2 eexists. split; [vm_compute; reflexivity|]. split; [vm_compute; reflexivity|]. vm_compute. discriminate. Qed.
Print Assumptions C09_data_with_error_refuted.

Theorem C09_full_refuted : ~ C09_full.
Proof.
  intros F. destruct (F [([], None)] [] ltac:(repeat constructor) ltac:(constructor)) as (s & v & s' & t' & E & _). discriminate.
Qed.
Print Assumptions C09_full_refuted.

(** The loop readers give the same values and the same Error() after every call, for every cut, empty reads
    included; the position is the same unless a number overflowed.  Missing for the full claim: an empty first read
    and the position after an overflow. *)
Theorem C09_readers_partial : forall reads ops s, honest reads -> Forall reader_op ops ->
  NewSource (mkReader reads EOF) = (Some s, None) ->
  exists v s' t', perform_all ops s = Ok v s' /\ perform_all ops (NewSourceString (all_bytes reads)) = Ok v t' /\
    s_err s' = s_err t' /\ (s_err s' <> Some overflow64 -> remaining s' = remaining t').
Proof.
  intros reads ops s H Ho E. destruct (NewSource_spec _ _ _ _ E H) as (_ & C & R & En & Er & _).
  destruct (NewSourceString_spec (all_bytes reads)) as (C2 & R2 & En2 & Er2 & _).
  destruct (readers_agree ops Ho s (NewSourceString (all_bytes reads))) as (v & s' & t' & E1 & E2 & (_ & _ & _ & Er' & X)).
  { repeat split; auto; try congruence. left. rewrite R2. exact R. }
  exists v, s', t'. split; auto. split; auto. split; auto. intros N. destruct X as [X|X]; [auto|congruence].
Qed.
Print Assumptions C09_readers_partial.
Example C09_readers_ex : exists s s',
  NewSource (mkReader (cut [bs "1"; []; bs "2,"; bs " "; bs "  ab"; []; bs "c;"; bs "d"]) EOF) = (Some s, None) /\
  perform_all [OUint64; OAny1 [] 32; OSpace; OAny2 [] 59 60; OSpace] s =
    Ok [(VZ 12, None); (VB (bs ","), None); (VZ 3, None); (VB (bs "abc"), None); (VZ 0, None)] s' /\ remaining s' = bs ";d".
Proof. do 2 eexists. split; [vm_compute; reflexivity|]. split; [vm_compute; reflexivity|]. reflexivity. Qed.

(** Any client program, deciding each call by the results so far, gets the same result (or hangs or panics alike)
    from two readers delivering the same bytes in different non-empty pieces, if it uses any of PeekN, Peek1, PeekRune,
    ConsumeN, Consume1, Uint64, Int64, Int32, AnyExcept1, AnyExcept2, Space, and gives up on an overflow of Uint64. *)
Theorem C09_clients_partial : forall A (c : client A) a b fin s t,
  uncut_client c -> fin <> overflow64 -> Forall (fun x => x <> []) a -> Forall (fun x => x <> []) b -> List.concat a = List.concat b ->
  NewSource (mkReader (cut a) fin) = (Some s, None) -> NewSource (mkReader (cut b) fin) = (Some t, None) ->
  match serve_until overflow64 c s, serve_until overflow64 c t with
  | Ok x s', Ok y t' => x = y /\ (x <> None -> remaining s' = remaining t')
  | Panic, Panic => True
  | OutOfFuel, OutOfFuel => True
  | _, _ => False
  end.
Proof.
  intros A c a b fin s t Hc Hf Ha Hb E Es Et.
  assert (Hcut : forall a, honest (cut a) /\ all_bytes (cut a) = List.concat a /\ (Forall (fun x => x <> []) a -> Forall (fun p : bytes * option err => fst p <> []) (cut a))).
  { clear. intros a. unfold honest, all_bytes, cut. rewrite map_map. cbn [fst]. rewrite map_id. split; [|split; [reflexivity|]].
    - apply Forall_forall. intros x Hx. apply in_map_iff in Hx as (y & <- & _). reflexivity.
    - intros F. apply Forall_forall. intros x Hx. apply in_map_iff in Hx as (y & <- & Hy). rewrite Forall_forall in F. now apply F. }
  destruct (Hcut a) as (H1 & H2 & H3), (Hcut b) as (H1' & H2' & H3').
  destruct (NewSource_spec _ _ _ _ Es H1) as (_ & C & R & En & Er & K).
  destruct (NewSource_spec _ _ _ _ Et H1') as (_ & C' & R' & En' & Er' & K').
  unfold all_bytes in *.
  assert (V : same_view s t) by (repeat split; auto; try congruence; left; congruence).
  pose proof (serve_agree A c Hc s t V ltac:(congruence)) as G.
  destruct (serve_until overflow64 c s), (serve_until overflow64 c t); auto.
  destruct G as [G1 G2]. split; auto. intros N. apply (G2 N).
Qed.
Print Assumptions C09_clients_partial.
Example C09_clients_ex :
  let c := Call OInt64 (fun v => Call OPeekRune (fun r => Call (OPeekN 9) (fun p => Call (OConsumeN 4) (fun _ => Call OPeek1 (fun w => Done [v; r; p; w]))))) in
  uncut_client c /\ exists s t s' t', NewSource (mkReader (cut [bs "-"; bs "7"; [226; 130]; [172]; bs "xyz"]) EOF) = (Some s, None) /\
  NewSource (mkReader (cut [bs "-7" ++ [226; 130; 172] ++ bs "xyz"]) EOF) = (Some t, None) /\
  serve_until overflow64 c s = Ok (Some [VZ (-7); VR 8364 3; VP ([226; 130; 172] ++ bs "xyz") (Some EOF); VZ 121]) s' /\
  serve_until overflow64 c t = Ok (Some [VZ (-7); VR 8364 3; VP ([226; 130; 172] ++ bs "xyz") (Some EOF); VZ 121]) t'.
Proof.
  intros c. split. { unfold c. repeat (constructor; [exact I|]; intros). constructor. }
  do 4 eexists. split; [vm_compute; reflexivity|]. split; [vm_compute; reflexivity|]. split; vm_compute; reflexivity.
Qed.

(** * C10 *)
Theorem C10_stream : forall s l outs s', clean s -> Forall stream_op l -> perform_all l s = Ok outs s' ->
  stream_ok (remaining s) (combine l (map fst outs)) (remaining s').
Proof. intros s l outs s' C F E. pose proof (stream_spec l F s C) as H. rewrite E in H. apply H. Qed.
Print Assumptions C10_stream.
(** Such a sequence of calls can only fail by hanging in a ConsumeN past the end. *)
Theorem C10_stream_total : forall s l, clean s -> Forall stream_op l ->
  (exists outs s', perform_all l s = Ok outs s') \/
  (perform_all l s = OutOfFuel /\ exists l1 n l2 outs s1, l = l1 ++ OConsumeN n :: l2 /\ perform_all l1 s = Ok outs s1 /\ (List.length (remaining s1) < n)%nat).
Proof.
  intros s l C F. pose proof (stream_spec l F s C) as H. destruct (perform_all l s); [left; eauto|contradiction|right; auto].
Qed.
Print Assumptions C10_stream_total.
Example C10_stream_ex : exists s outs s', NewSource (mkReader (cut [bs "ab"; []; bs "cde"; bs "f"]) EOF) = (Some s, None) /\ clean s /\
  perform_all [OPeekN 4; OConsumeN 1; OPeek; OPeekN 7; OConsumeN 3; OConsume; OPeekN 1] s = Ok outs s' /\
  map fst outs = [VP (bs "abcd") None; VU; VB (bs "b"); VP (bs "bcdef") (Some EOF); VU; VB (bs "e"); VP (bs "f") None] /\ remaining s' = bs "f".
Proof. do 3 eexists. split; [vm_compute; reflexivity|]. split; [repeat constructor|]. split; [vm_compute; reflexivity|]. split; reflexivity. Qed.

(** * C11 *)
Definition C11_full : Prop := forall s n, clean s -> exists s', ConsumeN n s = Ok tt s'.

(** With fewer than n bytes left the loop never ends, whatever the number of rounds. *)
Theorem C11_hang_refuted : forall fuel, consumeLoop fuel 3 (NewSourceString (bs "ab")) = OutOfFuel.
Proof. intros fuel. apply consumeLoop_short; [reflexivity|vm_compute; lia]. Qed.
Print Assumptions C11_hang_refuted.
Theorem C11_full_refuted : ~ C11_full.
Proof. intros F. destruct (F (NewSourceString []) 1%nat eq_refl) as (s' & E). discriminate. Qed.
Print Assumptions C11_full_refuted.

(** ConsumeN(n) returns, having dropped n bytes, exactly when n bytes are left; otherwise it never returns. *)
Theorem C11_returns_iff_partial : forall s n, clean s ->
  ((n <= List.length (remaining s))%nat -> exists s', ConsumeN n s = Ok tt s' /\ remaining s' = skipn n (remaining s)) /\
  ((List.length (remaining s) < n)%nat -> forall fuel, consumeLoop fuel n s = OutOfFuel).
Proof.
  intros s n C. split; intros H.
  - destruct (ConsumeN_ok n s C H) as (s' & E & R & _). eauto.
  - intros fuel. now apply consumeLoop_short.
Qed.
Print Assumptions C11_returns_iff_partial.
Example C11_returns_ex : exists s s', NewSource (mkReader (cut [bs "ab"; bs "c"]) EOF) = (Some s, None) /\ clean s /\
  ConsumeN 3 s = Ok tt s' /\ remaining s' = [] /\ s_err s' = Some EOF /\ consumeLoop 100 4 s = OutOfFuel.
Proof. do 2 eexists. split; [vm_compute; reflexivity|]. split; [repeat constructor|]. split; [vm_compute; reflexivity|]. repeat split. Qed.

(** * C12 *)
Definition C12_full : Prop := forall s, clean s -> bytes_ok (remaining s) ->
  exists r n s', PeekRune s = ((r, n), s') /\ decodes (remaining s) r n /\ remaining s' = remaining s.

(** At the end of input utf8.DecodeRune gives width 0 but PeekRune gives width 1. *)
Theorem C12_end_refuted : PeekRune (NewSourceString []) = ((0xFFFD, 1), NewSourceString []) /\ decodes [] 0xFFFD 0 /\ ~ decodes [] 0xFFFD 1.
Proof.
  split; [reflexivity|]. split; [right; right; auto|]. intros D. assert (decodes [] 0xFFFD 0) by (right; right; auto).
  destruct (decodes_unique _ _ _ _ _ D H). discriminate.
Qed.
Print Assumptions C12_end_refuted.
(** And after a read that returned nothing, with data to come. *)
Theorem C12_empty_read_refuted : exists s s', NewSource (mkReader (cut [bs "a"; []; bs "b"]) EOF) = (Some s, None) /\
  ConsumeN 1 s = Ok tt s' /\ remaining s' = bs "b" /\ fst (PeekRune s') = (0xFFFD, 1).
Proof. do 2 eexists. split; [vm_compute; reflexivity|]. split; [vm_compute; reflexivity|]. split; reflexivity. Qed.
Print Assumptions C12_empty_read_refuted.
Theorem C12_full_refuted : ~ C12_full.
Proof.
  intros F. destruct (F (NewSourceString []) eq_refl ltac:(constructor)) as (r & n & s' & E & D & _).
  cbn in E. injection E as <- <- <-. apply C12_end_refuted, D.
Qed.
Print Assumptions C12_full_refuted.

(** PeekRune decodes the next rune of the whole remaining input, and consumes nothing, whenever the current
    chunk is not empty. *)
Theorem C12_rune_partial : forall s, clean s -> s_current s <> [] -> bytes_ok (remaining s) ->
  exists r n s', PeekRune s = ((r, n), s') /\ decodes (remaining s) r n /\ remaining s' = remaining s /\ s_err s' = s_err s.
Proof.
  intros s C N B. destruct (PeekRune_spec s C N) as (s' & E & R & _ & _ & Er & _). pose proof (DecodeRune_decodes _ B) as D.
  destruct (DecodeRune (remaining s)) as [r n]. exists r, n, s'. auto.
Qed.
Print Assumptions C12_rune_partial.
(** What it decodes to is determined: [decodes] allows one answer only, and the encoding of a scalar value gives that value. *)
Theorem C12_roundtrip : forall s u rest, clean s -> s_current s <> [] -> bytes_ok (remaining s) -> is_scalar u -> remaining s = utf8 u ++ rest ->
  exists s', PeekRune s = ((u, lenZ (utf8 u)), s').
Proof.
  intros s u rest C N B S E. destruct (C12_rune_partial s C N B) as (r & n & s' & P & D & _).
  assert (D' : decodes (remaining s) u (lenZ (utf8 u))) by (left; eauto).
  destruct (decodes_unique _ _ _ _ _ D D') as [-> ->]. eauto.
Qed.
Print Assumptions C12_roundtrip.
Example C12_ex : exists s s', NewSource (mkReader (cut [[240]; [144; 141]; [136; 65]]) EOF) = (Some s, None) /\ clean s /\ s_current s <> [] /\
  bytes_ok (remaining s) /\ is_scalar 0x10348 /\ remaining s = utf8 0x10348 ++ [65] /\ PeekRune s = ((0x10348, 4), s').
Proof.
  do 2 eexists. split; [vm_compute; reflexivity|]. split; [repeat constructor|]. split; [discriminate|].
  split; [vm_compute; repeat constructor; discriminate|]. split; [unfold is_scalar; lia|]. split; vm_compute; reflexivity.
Qed.
Example C12_bad_ex : fst (PeekRune (NewSourceString [0xED; 0xA0; 0x80])) = (0xFFFD, 1) /\ fst (PeekRune (NewSourceString [0xE2; 0x82])) = (0xFFFD, 1).
Proof. split; reflexivity. Qed.

(** * C13 *)
Definition C13_full : Prop := forall s d rest, clean s -> s_err s = None -> longest is_num (remaining s) d rest ->
  exists v s', Uint64 s = Ok v s' /\
    (v = digits_value d /\ remaining s' = rest \/ 2^64 <= digits_value d /\ s_err s' = Some overflow64).

(** 30000000000000000000 is read as 11553255926290448384, without an error. *)
Theorem C13_wrap_refuted : exists s', Uint64 (NewSourceString (bs "30000000000000000000;")) = Ok 11553255926290448384 s' /\ s_err s' = None.
Proof. eexists. split; [vm_compute; reflexivity|reflexivity]. Qed.
Print Assumptions C13_wrap_refuted.
Theorem C13_full_refuted : ~ C13_full.
Proof.
  intros F. destruct (F (NewSourceString (bs "30000000000000000000;")) (bs "30000000000000000000") (bs ";")) as (v & s' & E & X); auto; try reflexivity.
  { split; [reflexivity|]. split; [cbn; repeat constructor; discriminate|]. cbn. unfold is_num. lia. }
  destruct C13_wrap_refuted as (s2 & E2 & Er). rewrite E in E2. injection E2 as -> ->.
  destruct X as [[X _]|[_ X]]; [vm_compute in X; discriminate|congruence].
Qed.
Print Assumptions C13_full_refuted.

(** Exact for every number that fits, of any length; the source is left at the first non-digit, at the end of input
    with the reader's end error recorded. *)
Theorem C13_exact_partial : forall s d rest, clean s -> s_err s = None -> longest is_num (remaining s) d rest -> digits_value d < 2^64 ->
  exists s', Uint64 s = Ok (digits_value d) s' /\ remaining s' = rest /\
    s_err s' = (match rest with [] => Some (end_error s) | _ => None end).
Proof.
  intros s d rest C E L V. destruct (Uint64_after s d rest C L (or_introl E) V) as (s' & U & _ & _ & _ & R & X).
  exists s'. split; auto. split; auto. destruct X as [[-> X]|(N & X & _)]; auto. destruct rest; congruence.
Qed.
Print Assumptions C13_exact_partial.
Example C13_exact_ex : exists s s', NewSource (mkReader (cut [bs "000184467440737"; bs "0955161"; bs "5x"]) EOF) = (Some s, None) /\ clean s /\
  s_err s = None /\ longest is_num (remaining s) (bs "00018446744073709551615") (bs "x") /\ digits_value (bs "00018446744073709551615") = 2^64 - 1 /\
  Uint64 s = Ok (2^64 - 1) s' /\ remaining s' = bs "x".
Proof.
  do 2 eexists. split; [vm_compute; reflexivity|]. split; [repeat constructor|]. split; [reflexivity|].
  split; [split; [reflexivity|]; split; [cbn; repeat constructor; discriminate|cbn; unfold is_num; lia]|].
  split; [vm_compute; reflexivity|]. split; vm_compute; reflexivity.
Qed.

(** For all numbers: the result is the value modulo 2^64 unless that drops from one digit to the next, and
    exactly then an overflow is reported. *)
Theorem C13_modulo : forall s d rest, clean s -> s_err s = None -> longest is_num (remaining s) d rest ->
  exists s', (~ drops d /\ Uint64 s = Ok (digits_value d mod 2^64) s' /\ remaining s' = rest /\ s_err s' <> Some overflow64 \/
              drops d /\ Uint64 s = Ok 0 s' /\ s_err s' = Some overflow64) \/ end_error s = overflow64.
Proof.
  intros s d rest C E L. destruct (Uint64_spec s d rest C E L) as (s' & _ & _ & _ & [(D & U & R & X)|(D & U & X)]).
  - exists s'. destruct X as [[X Y]|(X & Y & _)].
    + destruct (err_eqb (end_error s) overflow64) eqn:Q; [apply err_eqb_spec in Q; auto|]. left. left. repeat split; auto.
      rewrite Y. intros Z0. injection Z0 as Z0. rewrite Z0 in Q. rewrite (proj2 (err_eqb_spec _ _) eq_refl) in Q. discriminate.
    + left. left. repeat split; auto. congruence.
  - exists s'. auto.
Qed.
Print Assumptions C13_modulo.
(** A number whose leading digits still fit (every 20-digit number, for instance) is reported as overflow exactly if its value
    modulo 2^64 is less than the number without its last digit. *)
Theorem C13_overflow_iff : forall p c, Forall is_num (p ++ [c]) -> digits_value p < 2^64 ->
  (drops (p ++ [c]) <-> digits_value (p ++ [c]) mod 2^64 < digits_value p).
Proof.
  intros p c F Hp. apply Forall_app in F as [F1 F2]. pose proof (digits_nonneg p F1) as P0. split.
  - intros (p' & c' & q & E & L). destruct q as [|c2 q] using rev_ind.
    + apply app_inj_tail in E as [<- <-]. rewrite (Z.mod_small (digits_value p)) in L by lia. exact L.
    + exfalso. clear IHq. replace (p' ++ c' :: q ++ [c2]) with ((p' ++ c' :: q) ++ [c2]) in E by now rewrite <- app_assoc.
      apply app_inj_tail in E as [-> _]. apply (small_no_drop (p' ++ c' :: q)); auto. exists p', c', q. auto.
  - intros L. exists p, c, []. split; auto. rewrite (Z.mod_small (digits_value p)) by lia. exact L.
Qed.
Print Assumptions C13_overflow_iff.
Example C13_overflow_ex : drops (bs "18446744073709551616") /\ ~ drops (bs "30000000000000000000").
Proof.
  split.
  - apply (C13_overflow_iff (bs "1844674407370955161") 54); [cbn; repeat constructor; discriminate|vm_compute; reflexivity|vm_compute; reflexivity].
  - intros D. apply (C13_overflow_iff (bs "3000000000000000000") 48) in D; [|cbn; repeat constructor; discriminate|vm_compute; reflexivity].
    vm_compute in D. discriminate.
Qed.

(** * C14 *)
Definition int_result (w : Z) (msg : bytes) (r : res Z) (v : Z) (rest : bytes) : Prop :=
  exists s', remaining s' = rest /\
  (- 2^(w-1) <= v < 2^(w-1) /\ r = Ok v s' /\ s_err s' <> Some (ErrMsg msg) \/
   ~ - 2^(w-1) <= v < 2^(w-1) /\ r = Ok 0 s' /\ s_err s' = Some (ErrMsg msg)).
Definition C14_full : Prop := forall s neg d rest, clean s -> compact s -> s_err s = None -> end_error s = EOF -> remaining s <> [] ->
  signed_number (remaining s) neg d rest ->
  int_result 64 (bs "int64: overflow") (Int64 s) (signed_value neg d) rest /\
  int_result 32 (bs "int32: overflow") (Int32 s) (signed_value neg d) rest.

(** 21000000000000000000 is read as 2553255926290448384, without an error. *)
Theorem C14_wrap_refuted : exists s', Int64 (NewSourceString (bs "21000000000000000000;")) = Ok 2553255926290448384 s' /\ s_err s' = None.
Proof. eexists. split; [vm_compute; reflexivity|reflexivity]. Qed.
Print Assumptions C14_wrap_refuted.
(** At the end of input io.EOF has been recorded already, so the overflow is not reported: 0 and io.EOF come back,
    which is what "0" gives. *)
Theorem C14_end_refuted : exists s' s'', Int64 (NewSourceString (bs "9223372036854775808")) = Ok 0 s' /\ s_err s' = Some EOF /\
  Int32 (NewSourceString (bs "-2147483649")) = Ok 0 s'' /\ s_err s'' = Some EOF.
Proof. do 2 eexists. split; [vm_compute; reflexivity|]. split; [reflexivity|]. split; vm_compute; reflexivity. Qed.
Print Assumptions C14_end_refuted.
Theorem C14_full_refuted : ~ C14_full.
Proof.
  intros F. destruct (NewSourceString_spec (bs "9223372036854775808")) as (C & R & En & Er & K).
  destruct (F (NewSourceString (bs "9223372036854775808")) false (bs "9223372036854775808") []) as [(s' & _ & X) _]; auto; try discriminate.
  { split; [reflexivity|]. split; [cbn; repeat constructor; discriminate|exact I]. }
  destruct C14_end_refuted as (s2 & _ & E2 & Er2 & _). rewrite E2 in X. destruct X as [(X & _)|(_ & X & Y)].
  - destruct X as [_ X]. vm_compute in X. discriminate X.
  - injection X as <-. congruence.
Qed.
Print Assumptions C14_full_refuted.

(** If the magnitude fits in uint64: exact when in range (the most negative value included), otherwise 0 with the
    overflow error - except at the end of input, where the end error is reported instead. *)
Theorem C14_exact_partial : forall s neg d rest, clean s -> s_err s = None -> s_current s <> [] ->
  signed_number (remaining s) neg d rest -> digits_value d < 2^64 ->
  let v := signed_value neg d in
  (exists s', remaining s' = rest /\
    (- 2^63 <= v < 2^63 -> Int64 s = Ok v s' /\ s_err s' = match rest with [] => Some (end_error s) | _ => None end) /\
    (~ - 2^63 <= v < 2^63 -> Int64 s = Ok 0 s' /\ s_err s' = match rest with [] => Some (end_error s) | _ => Some (ErrMsg (bs "int64: overflow")) end)) /\
  (exists s', remaining s' = rest /\
    (- 2^31 <= v < 2^31 -> Int32 s = Ok v s' /\ s_err s' = match rest with [] => Some (end_error s) | _ => None end) /\
    (~ - 2^31 <= v < 2^31 -> Int32 s = Ok 0 s' /\ s_err s' = match rest with [] => Some (end_error s) | _ => Some (ErrMsg (bs "int32: overflow")) end)).
Proof.
  intros s neg d rest C E N Hs Hv v.
  assert (G : forall w msg, w = 64 \/ w = 32 -> exists s', remaining s' = rest /\
    (- 2^(w-1) <= v < 2^(w-1) -> IntW w msg s = Ok v s' /\ s_err s' = match rest with [] => Some (end_error s) | _ => None end) /\
    (~ - 2^(w-1) <= v < 2^(w-1) -> IntW w msg s = Ok 0 s' /\ s_err s' = match rest with [] => Some (end_error s) | _ => Some (ErrMsg msg) end)).
  { intros w msg Hw. destruct (IntW_spec w msg s neg d rest Hw C E N Hs Hv) as (s' & _ & _ & _ & R & U & X1 & X2).
    exists s'. split; auto. fold v in U, X2. destruct ((- 2^(w-1) <=? v) && (v <? 2^(w-1))) eqn:B.
    - apply andb_true_iff in B as [B1 B2]. apply Z.leb_le in B1. apply Z.ltb_lt in B2. split; [|lia]. intros _. split; auto.
      destruct rest; [auto|]. now apply X2.
    - split; [intros [L1 L2]; apply Z.leb_le in L1; apply Z.ltb_lt in L2; rewrite L1, L2 in B; discriminate|]. intros _. split; auto.
      destruct rest; [auto|]. now apply X2. }
  split; [rewrite Int64_eq; apply (G 64)|rewrite Int32_eq; apply (G 32)]; auto.
Qed.
Print Assumptions C14_exact_partial.
Example C14_exact_ex : signed_number (bs "-9223372036854775808,") true (bs "9223372036854775808") (bs ",") /\
  (exists s', Int64 (NewSourceString (bs "-9223372036854775808,")) = Ok (- 2^63) s') /\
  (exists s', Int64 (NewSourceString (bs "9223372036854775808,")) = Ok 0 s' /\ s_err s' = Some (ErrMsg (bs "int64: overflow"))) /\
  (exists s', Int32 (NewSourceString (bs "-2147483648,")) = Ok (- 2^31) s').
Proof.
  split. { split; [reflexivity|]. split; [cbn; repeat constructor; discriminate|]. cbn. unfold is_num. split; [lia|discriminate]. }
  split; [eexists; vm_compute; reflexivity|]. split; [eexists; split; vm_compute; reflexivity|]. eexists; vm_compute; reflexivity.
Qed.

(** * C15 *)
Theorem C15_any1 : forall s space b a rest, clean s -> s_err s = None -> longest (fun c => c <> b) (remaining s) a rest ->
  exists s', AnyExcept1 space b s = Ok (space ++ a) s' /\ remaining s' = rest /\ s_err s' = match rest with [] => Some (end_error s) | _ => None end.
Proof.
  intros s space b a rest C E L.
  destruct (scan_longest bytes (fun c => c <> b) (fun space c => if c =? b then Stop else Go (space ++ [c])) (fun a c => a ++ [c]) [] space s a rest) as (s' & U & R & _ & _ & _ & X); auto.
  { intros x c H. cbv beta in *. destruct (Z.eqb_spec c b); [tauto|reflexivity]. }
  { intros x c H. cbv beta in *. destruct (Z.eqb_spec c b); tauto. }
  exists s'. rewrite fold_append in U. split; auto. split; auto. destruct X as [[-> X]|(N & X & _)]; auto. destruct rest; congruence.
Qed.
Print Assumptions C15_any1.
Theorem C15_any2 : forall s space b1 b2 a rest, clean s -> s_err s = None -> longest (fun c => c <> b1 /\ c <> b2) (remaining s) a rest ->
  exists s', AnyExcept2 space b1 b2 s = Ok (space ++ a) s' /\ remaining s' = rest /\ s_err s' = match rest with [] => Some (end_error s) | _ => None end.
Proof.
  intros s space b1 b2 a rest C E L.
  destruct (scan_longest bytes (fun c => c <> b1 /\ c <> b2) (fun space c => if (c =? b1) || (c =? b2) then Stop else Go (space ++ [c])) (fun a c => a ++ [c]) [] space s a rest) as (s' & U & R & _ & _ & _ & X); auto.
  { intros x c [H1 H2]. apply Z.eqb_neq in H1, H2. now rewrite H1, H2. }
  { intros x c H. destruct (Z.eqb_spec c b1), (Z.eqb_spec c b2); cbn; tauto. }
  exists s'. rewrite fold_append in U. split; auto. split; auto. destruct X as [[-> X]|(N & X & _)]; auto. destruct rest; congruence.
Qed.
Print Assumptions C15_any2.
(** ASCII white space: tab, line feed, vertical tab, form feed, carriage return, space. *)
Definition ascii_space (c : Z) : Prop := 9 <= c <= 13 \/ c = 32.
Theorem C15_space : forall s a rest, clean s -> s_err s = None -> longest ascii_space (remaining s) a rest ->
  exists s', Space s = Ok (lenZ a) s' /\ remaining s' = rest /\ s_err s' = match rest with [] => Some (end_error s) | _ => None end.
Proof.
  intros s a rest C E L. assert (SP : forall c, is_space c = true <-> ascii_space c) by (intros c; unfold is_space, ascii_space; lia).
  destruct (scan_longest Z ascii_space (fun count b => if is_space b then Go (count + 1) else Stop) (fun a _ => a + 1) 0 0 s a rest) as (s' & U & R & _ & _ & _ & X); auto.
  { intros x c H. apply SP in H. now rewrite H. }
  { intros x c H. destruct (is_space c) eqn:Q; auto. apply SP in Q. tauto. }
  exists s'. rewrite fold_count in U. split; auto. split; auto. destruct X as [[-> X]|(N & X & _)]; auto. destruct rest; congruence.
Qed.
Print Assumptions C15_space.
Example C15_ex : exists s s' s'', NewSource (mkReader (cut [bs "a"; bs "bc"; []; bs "=d e"]) EOF) = (Some s, None) /\ clean s /\ s_err s = None /\
  longest (fun c => c <> 61) (remaining s) (bs "abc") (bs "=d e") /\ AnyExcept1 [7] 61 s = Ok ([7] ++ bs "abc") s' /\
  AnyExcept2 [] 32 100 s = Ok (bs "abc=") s'' /\ longest (fun c => c <> 32 /\ c <> 100) (remaining s) (bs "abc=") (bs "d e").
Proof.
  do 3 eexists. split; [vm_compute; reflexivity|]. split; [repeat constructor|]. split; [reflexivity|].
  split; [split; [reflexivity|]; split; [cbn; repeat constructor; discriminate|cbn; lia]|].
  split; [vm_compute; reflexivity|]. split; [vm_compute; reflexivity|].
  split; [reflexivity|]; split; [cbn; repeat constructor; discriminate|cbn; lia].
Qed.
Example C15_space_ex : longest ascii_space ([9; 32; 10] ++ bs "x ") [9; 32; 10] (bs "x ") /\ exists s', Space (NewSourceString ([9; 32; 10] ++ bs "x ")) = Ok 3 s'.
Proof.
  split; [split; [reflexivity|]; split; [repeat constructor; unfold ascii_space; lia|cbn; unfold ascii_space; lia]|].
  eexists. vm_compute. reflexivity.
Qed.

(** * C16 *)
Definition accepted (incl excl : list table) (r : Z) : Prop :=
  (incl = [] \/ exists t, In t incl /\ t r = true) /\ forall t, In t excl -> t r = false.
Definition reads_run (m : nat -> M (list Z)) (P : Z -> Prop) (s : Source) : Prop :=
  exists fuel rs rest s', m fuel s = Ok rs s' /\ rune_run P (remaining s) rs rest /\ remaining s' = rest.
Definition C16_full : Prop := forall s incl excl, clean s -> compact s -> bytes_ok (remaining s) ->
  reads_run (fun fuel => UnicodeRanges fuel [] incl excl) (accepted incl excl) s.

(** The letters of "ab" are accepted, but only the first is read. *)
Definition letters : table := fun r => (97 <=? r) && (r <=? 122).
Theorem C16_includes_refuted : forall fuel, exists s',
  UnicodeRanges (S fuel) [] [letters] [] (NewSourceString (bs "ab")) = Ok (bs "a") s' /\ remaining s' = bs "b".
Proof. intros fuel. eexists. split; [cbn; reflexivity|reflexivity]. Qed.
Print Assumptions C16_includes_refuted.
(** A rune in two of the tables is read twice and two runes are dropped. *)
Theorem C16_twice_refuted : forall fuel, exists s',
  UnicodeRanges (S fuel) [] [letters; letters] [] (NewSourceString (bs "ab")) = Ok (bs "aa") s' /\ remaining s' = [].
Proof. intros fuel. eexists. split; [cbn; reflexivity|reflexivity]. Qed.
Print Assumptions C16_twice_refuted.
(** Without an excluded rune before the end of input the loop never ends. *)
Theorem C16_end_refuted : forall fuel, UnicodeRanges fuel [] [] [letters] (NewSourceString (bs "12")) = OutOfFuel.
Proof.
  intros fuel. destruct (NewSourceString_spec (bs "12")) as (C & R & _ & _ & K).
  destruct (UnicodeRanges_excl [letters] 5 (NewSourceString (bs "12")) [] C K) as (rs & rest & Run & _ & H).
  { rewrite R. vm_compute. repeat constructor; discriminate. }
  { rewrite R. cbn. lia. }
  apply H; [|reflexivity]. rewrite R in Run.
  assert (D1 : decodes (bs "12") 49 1) by (left; exists (bs "2"); split; [unfold is_scalar; lia|split; reflexivity]).
  assert (D2 : decodes (bs "2") 50 1) by (left; exists []; split; [unfold is_scalar; lia|split; reflexivity]).
  inversion Run as [|? r n N D NP|? r n rs' ? N D P Run']; subst.
  - destruct (decodes_unique _ _ _ _ _ D D1) as [-> _]. now exfalso.
  - destruct (decodes_unique _ _ _ _ _ D D1) as [-> ->]. change (skipn (Z.to_nat 1) (bs "12")) with (bs "2") in Run'.
    inversion Run' as [|? r n N' D' NP|? r n rs2 ? N' D' P' Run2]; subst.
    + destruct (decodes_unique _ _ _ _ _ D' D2) as [-> _]. now exfalso.
    + destruct (decodes_unique _ _ _ _ _ D' D2) as [-> ->]. change (skipn (Z.to_nat 1) (bs "2")) with (@nil Z) in Run2.
      inversion Run2; subst; auto; congruence.
Qed.
Print Assumptions C16_end_refuted.
Theorem C16_full_refuted : ~ C16_full.
Proof.
  intros F. destruct (NewSourceString_spec (bs "12")) as (C & R & _ & _ & K).
  destruct (F (NewSourceString (bs "12")) [] [letters] C K) as (fuel & rs & rest & s' & E & _).
  { rewrite R. vm_compute. repeat constructor; discriminate. }
  rewrite C16_end_refuted in E. discriminate.
Qed.
Print Assumptions C16_full_refuted.

(** UnicodeRange reads the longest run of runes of the table and stops there, for every table without U+FFFD. *)
Theorem C16_range_partial : forall (t : table) s space, clean s -> compact s -> bytes_ok (remaining s) -> t 0xFFFD = false ->
  exists m rs rest s', (forall fuel, (m <= fuel)%nat -> UnicodeRange fuel space t s = Ok (space ++ rs) s') /\
    rune_run (fun r => t r = true) (remaining s) rs rest /\ remaining s' = rest.
Proof.
  intros t s space C K B T. destruct (UnicodeRange_spec t (S (List.length (remaining s))) s space C K B T ltac:(lia)) as (rs & rest & s' & F & Run & R & _).
  exists (S (List.length (remaining s))), rs, rest, s'. auto.
Qed.
Print Assumptions C16_range_partial.
(** skip.UnicodeRange and skip.UnicodeSpace skip the same run and return its length in bytes. *)
Theorem C16_skip_partial : forall (t : table) s, clean s -> compact s -> bytes_ok (remaining s) -> t 0xFFFD = false ->
  exists m rs rest s', (forall fuel, (m <= fuel)%nat -> SkipUnicodeRange fuel 0 t s = Ok (lenZ (remaining s) - lenZ rest) s') /\
    rune_run (fun r => t r = true) (remaining s) rs rest /\ remaining s' = rest.
Proof.
  intros t s C K B T. destruct (SkipUnicodeRange_spec t (S (List.length (remaining s))) s 0 C K B T ltac:(lia)) as (rs & rest & s' & F & Run & R & _).
  exists (S (List.length (remaining s))), rs, rest, s'. auto.
Qed.
Print Assumptions C16_skip_partial.
Lemma rune_run_iff : forall P Q s rs rest, (forall r, P r <-> Q r) -> rune_run P s rs rest -> rune_run Q s rs rest.
Proof.
  intros P Q s rs rest H R. induction R as [|s r n NE D N|s r n rs rest NE D Y _ IH]; [constructor| |].
  - eapply run_stop; eauto. now rewrite <- H.
  - eapply run_step; eauto. now apply H.
Qed.
Theorem C16_white_space : forall r, unicodeIsSpace r = true <-> In r white_space.
Proof.
  intro r. unfold unicodeIsSpace, white_space. rewrite !orb_true_iff, !andb_true_iff, !Z.leb_le, !Z.eqb_eq. cbn [In]. lia.
Qed.
Print Assumptions C16_white_space.
Theorem C16_space : forall s, clean s -> compact s -> bytes_ok (remaining s) -> s_err s = None ->
  exists m rs rest s', (forall fuel, (m <= fuel)%nat -> UnicodeSpace fuel 0 s = Ok (lenZ (remaining s) - lenZ rest) s') /\
    rune_run (fun r => In r white_space) (remaining s) rs rest /\ remaining s' = rest.
Proof.
  intros s C K B E. destruct (UnicodeSpace_spec (S (List.length (remaining s))) s 0 C K B E ltac:(lia)) as (rs & rest & s' & F & Run & R & _).
  exists (S (List.length (remaining s))), rs, rest, s'. split; [exact F|]. split; [|exact R]. exact (rune_run_iff _ _ _ _ _ C16_white_space Run).
Qed.
Print Assumptions C16_space.
(** For every table: the run is read if it ends before the end of input or U+FFFD is not in the table, and otherwise
    the loop never ends. *)
Theorem C16_range_iff : forall (t : table) s space, clean s -> compact s -> bytes_ok (remaining s) ->
  exists m rs rest, rune_run (fun r => t r = true) (remaining s) rs rest /\
    (rest <> [] \/ t 0xFFFD = false -> exists s', (forall fuel, (m <= fuel)%nat -> UnicodeRange fuel space t s = Ok (space ++ rs) s') /\ remaining s' = rest) /\
    (rest = [] -> t 0xFFFD = true -> forall fuel, UnicodeRange fuel space t s = OutOfFuel).
Proof.
  intros t s space C K B. destruct (UnicodeRanges_excl [fun r => negb (t r)] (S (List.length (remaining s))) s space C K B ltac:(lia)) as (rs & rest & Run & H1 & H2).
  exists (S (List.length (remaining s))), rs, rest. split; [|split].
  - eapply rune_run_ext; [|exact Run]. intros r. cbn. destruct (t r); cbn; split; congruence.
  - intros X. destruct H1 as (s' & F & R & _).
    { destruct X as [X|X]; [auto|right]. cbn. unfold RuneError. now rewrite X. }
    exists s'. split; auto. intros fuel Hf. rewrite UnicodeRange_as_excl. auto.
  - intros X Y fuel. rewrite UnicodeRange_as_excl. apply H2; auto. cbn. unfold RuneError. now rewrite Y.
Qed.
Print Assumptions C16_range_iff.
(** Exclude lists alone: the run up to the first excluded rune is read; if there is none (and U+FFFD is not excluded) the loop never ends. *)
Theorem C16_excludes_iff : forall (excl : list table) s space, clean s -> compact s -> bytes_ok (remaining s) ->
  exists m rs rest, rune_run (accepted [] excl) (remaining s) rs rest /\
    (rest <> [] \/ ~ accepted [] excl 0xFFFD -> exists s', (forall fuel, (m <= fuel)%nat -> UnicodeRanges fuel space [] excl s = Ok (space ++ rs) s') /\ remaining s' = rest) /\
    (rest = [] -> accepted [] excl 0xFFFD -> forall fuel, UnicodeRanges fuel space [] excl s = OutOfFuel).
Proof.
  intros excl s space C K B. destruct (UnicodeRanges_excl excl (S (List.length (remaining s))) s space C K B ltac:(lia)) as (rs & rest & Run & H1 & H2).
  assert (Q : forall r, existsb (fun t : table => t r) excl = false <-> accepted [] excl r).
  { intros r. unfold accepted. split.
    - intros E. split; auto. intros t I. destruct (t r) eqn:T; auto. exfalso. assert (existsb (fun t : table => t r) excl = true) by (apply existsb_exists; eauto). congruence.
    - intros [_ H]. destruct (existsb (fun t : table => t r) excl) eqn:E; auto. apply existsb_exists in E as (t & I & T). specialize (H t I). cbv beta in *. congruence. }
  exists (S (List.length (remaining s))), rs, rest. split; [|split].
  - eapply rune_run_ext; [|exact Run]. apply Q.
  - intros X. destruct H1 as (s' & F & R & _); [|exists s'; auto].
    destruct X as [X|X]; [auto|right]. rewrite <- Q in X. unfold RuneError. destruct (existsb (fun t : table => t 65533) excl); congruence.
  - intros X Y. apply H2; auto. now apply Q.
Qed.
Print Assumptions C16_excludes_iff.
(** With includes: at most the first rune is read, once for each table it is in, dropping as many times its width. *)
Theorem C16_includes_exact : forall incl excl s space r n fuel, clean s -> s_current s <> [] -> bytes_ok (remaining s) -> incl <> [] ->
  decodes (remaining s) r n -> let k := matching incl r in
  (~ (forall t, In t excl -> t r = false) -> exists s', UnicodeRanges (S fuel) space incl excl s = Ok space s' /\ remaining s' = remaining s) /\
  ((forall t, In t excl -> t r = false) -> (k * Z.to_nat n <= List.length (remaining s))%nat ->
     exists s', UnicodeRanges (S fuel) space incl excl s = Ok (space ++ repeat r k) s' /\ remaining s' = skipn (k * Z.to_nat n) (remaining s)) /\
  ((forall t, In t excl -> t r = false) -> (List.length (remaining s) < k * Z.to_nat n)%nat ->
     UnicodeRanges (S fuel) space incl excl s = OutOfFuel).
Proof.
  intros incl excl s space r n fuel C N B NI D k.
  destruct (C12_rune_partial s C N B) as (r' & n' & s1 & P & D' & R & _).
  destruct (decodes_unique _ _ _ _ _ D D') as [<- <-].
  destruct (PeekRune_spec s C N) as (s2 & P2 & _ & C1 & _). rewrite P in P2. injection P2 as _ <-.
  assert (NE : remaining s <> []).
  { intros Q. unfold remaining, chunks in Q. cbn [List.concat] in Q. apply app_eq_nil in Q as [Q _]. congruence. }
  destruct (decodes_width _ _ _ NE D) as [W _].
  assert (Q : existsb (fun t : table => t r) excl = false <-> forall t, In t excl -> t r = false).
  { split.
    - intros E t I. destruct (t r) eqn:T; auto. exfalso. assert (existsb (fun t : table => t r) excl = true) by (apply existsb_exists; eauto). congruence.
    - intros H. destruct (existsb (fun t : table => t r) excl) eqn:E; auto. apply existsb_exists in E as (t & I & T). specialize (H t I). cbv beta in *. congruence. }
  cbn [UnicodeRanges]. rewrite P. destruct (existsb (fun t : table => t r) excl) eqn:X.
  - split; [eauto|]. split; intros H; apply Q in H; congruence.
  - split; [intros H; exfalso; apply H; now apply Q|].
    pose proof (includesLoop_spec incl r n space s1 C1 ltac:(lia)) as IL. rewrite R in IL. fold k in IL.
    destruct incl as [|t0 incl]; [congruence|]. split; intros _ L.
    + apply Nat.leb_le in L. rewrite L in IL. destruct IL as (s' & E & R' & _). eauto.
    + apply Nat.leb_gt in L. rewrite L in IL. exact IL.
Qed.
Print Assumptions C16_includes_exact.
(** skip.UnicodeRanges: the same, at most one rune, and nothing without includes; it returns the bytes skipped. *)
Theorem C16_skip_includes_exact : forall incl excl s r n, clean s -> s_current s <> [] -> bytes_ok (remaining s) ->
  decodes (remaining s) r n -> let k := matching incl r in
  (~ (forall t, In t excl -> t r = false) -> exists s', SkipUnicodeRanges incl excl s = Ok 0 s' /\ remaining s' = remaining s) /\
  ((forall t, In t excl -> t r = false) -> (k * Z.to_nat n <= List.length (remaining s))%nat ->
     exists s', SkipUnicodeRanges incl excl s = Ok (Z.of_nat k * n) s' /\ remaining s' = skipn (k * Z.to_nat n) (remaining s)) /\
  ((forall t, In t excl -> t r = false) -> (List.length (remaining s) < k * Z.to_nat n)%nat ->
     SkipUnicodeRanges incl excl s = OutOfFuel).
Proof.
  intros incl excl s r n C N B D k.
  destruct (C12_rune_partial s C N B) as (r' & n' & s1 & P & D' & R & _).
  destruct (decodes_unique _ _ _ _ _ D D') as [<- <-].
  destruct (PeekRune_spec s C N) as (s2 & P2 & _ & C1 & _). rewrite P in P2. injection P2 as _ <-.
  assert (NE : remaining s <> []).
  { intros Q. unfold remaining, chunks in Q. cbn [List.concat] in Q. apply app_eq_nil in Q as [Q _]. congruence. }
  destruct (decodes_width _ _ _ NE D) as [W _].
  assert (Q : existsb (fun t : table => t r) excl = false <-> forall t, In t excl -> t r = false).
  { split.
    - intros E t I. destruct (t r) eqn:T; auto. exfalso. assert (existsb (fun t : table => t r) excl = true) by (apply existsb_exists; eauto). congruence.
    - intros H. destruct (existsb (fun t : table => t r) excl) eqn:E; auto. apply existsb_exists in E as (t & I & T). specialize (H t I). cbv beta in *. congruence. }
  unfold SkipUnicodeRanges. rewrite P. destruct (existsb (fun t : table => t r) excl) eqn:X.
  - split; [eauto|]. split; intros H; apply Q in H; congruence.
  - split; [intros H; exfalso; apply H; now apply Q|]. rewrite (skipIncludes_as incl r n []).
    pose proof (includesLoop_spec incl r n [] s1 C1 ltac:(lia)) as IL. rewrite R in IL. fold k in IL. split; intros _ L.
    + apply Nat.leb_le in L. rewrite L in IL. destruct IL as (s' & E & R' & _). rewrite E. exists s'. split; auto.
      f_equal. cbn [app]. unfold lenZ. rewrite repeat_length. cbn [List.length]. lia.
    + apply Nat.leb_gt in L. rewrite L in IL. now rewrite IL.
Qed.
Print Assumptions C16_skip_includes_exact.
Example C16_skip_ex : exists s', SkipUnicodeRanges [letters; fun r => r =? 97] [fun r => r =? 98] (NewSourceString (bs "abc")) = Ok 2 s' /\ remaining s' = bs "c" /\
  decodes (bs "abc") 97 1 /\ matching [letters; fun r => r =? 97] 97 = 2%nat.
Proof.
  eexists. split; [vm_compute; reflexivity|]. split; [reflexivity|]. split; [|reflexivity].
  left. exists (bs "bc"). split; [unfold is_scalar; lia|split; reflexivity].
Qed.
Example C16_ex : exists s s', NewSource (mkReader (cut [bs "a"; bs "bc"; [226]; [130; 172]]) EOF) = (Some s, None) /\ clean s /\ compact s /\ bytes_ok (remaining s) /\
  letters 0xFFFD = false /\ UnicodeRange 9 [] letters s = Ok (bs "abc") s' /\ remaining s' = [226; 130; 172].
Proof.
  assert (H : honest (cut [bs "a"; bs "bc"; [226]; [130; 172]])) by repeat constructor.
  eexists. eexists. split; [reflexivity|]. edestruct (NewSource_spec _ _ _ _ (eq_refl (NewSource (mkReader (cut [bs "a"; bs "bc"; [226]; [130; 172]]) EOF))) H) as (_ & C & R & _ & _ & K).
  split; [exact C|]. split; [apply K; repeat constructor; discriminate|]. split; [rewrite R; vm_compute; repeat constructor; discriminate|].
  split; [reflexivity|]. split; vm_compute; reflexivity.
Qed.

(** * C17 *)
Theorem C17_expr : forall text v, Sum text v -> exists m, forall fuel, (m <= fuel)%nat ->
  exists s', exprString fuel text = Ok (Some (wrap_signed 64 v), None) s'.
Proof.
  intros text v H. destruct (parse0 text v H) as (m & P). exists m. intros fuel Hf.
  destruct (NewSourceString_spec text) as (C & R & En & Er & K).
  destruct (P (NewSourceString text) EOF fuel Hf C K Er R En) as (s' & E & (_ & _ & _ & _ & X)).
  exists s'. unfold exprString, ParseString, bind. unfold exprParse in E. rewrite E. unfold Error.
  destruct X as [[_ ->]|[X _]]; [reflexivity|congruence].
Qed.
Print Assumptions C17_expr.
(** The same from a reader, however it cuts the text into non-empty pieces. *)
Theorem C17_expr_reader : forall text v a s, Sum text v -> Forall (fun x => x <> []) a -> List.concat a = text ->
  NewSource (mkReader (cut a) EOF) = (Some s, None) ->
  exists m, forall fuel, (m <= fuel)%nat -> exists s', exprParse fuel 0 s = Ok (Some (wrap_signed 64 v)) s' /\ Error s' = Some EOF.
Proof.
  intros text v a s H Ha Ec E. destruct (parse0 text v H) as (m & P). exists m. intros fuel Hf.
  assert (Ho : honest (cut a)) by (apply Forall_forall; intros x Hx; apply in_map_iff in Hx as (y & <- & _); reflexivity).
  destruct (NewSource_spec _ _ _ _ E Ho) as (_ & C & R & En & Er & K).
  assert (R' : remaining s = text) by (rewrite R, <- Ec; unfold cut; rewrite map_map; cbn [fst]; now rewrite map_id).
  destruct (P s EOF fuel Hf C) as (s' & E' & (_ & _ & _ & _ & X)); auto.
  { apply K. apply Forall_forall. intros x Hx. apply in_map_iff in Hx as (y & <- & Hy). rewrite Forall_forall in Ha. now apply Ha. }
  exists s'. split; auto. destruct X as [[_ X]|[X _]]; [exact X|congruence].
Qed.
Print Assumptions C17_expr_reader.
Example C17_ex : Sum (bs "2*3-4*-5-6") 20 /\ exists s', exprString 20 (bs "2*3-4*-5-6") = Ok (Some 20, None) s'.
Proof.
  assert (N : forall neg d, Forall is_num d -> d <> [] -> - 2^63 <= signed_value neg d < 2^63 -> Num ((if neg then [45] else []) ++ d) (signed_value neg d)) by (intros; now constructor).
  assert (D : forall c, 48 <= c <= 57 -> Num [c] (c - 48)).
  { intros c H. replace (c - 48) with (signed_value false [c]) by (cbn; lia). apply (N false [c]); [repeat constructor; unfold is_num; lia|discriminate|cbn; lia]. }
  split; [|eexists; vm_compute; reflexivity].
  change (Sum (((bs "2" ++ [42] ++ bs "3") ++ [45] ++ (bs "4" ++ [42] ++ bs "-5")) ++ [45] ++ bs "6") (2 * 3 - 4 * -5 - 6)).
  apply sum_sub; [|apply term_num, (D 54); lia]. apply sum_sub; [apply sum_term|]; (apply term_mul; [apply term_num|]).
  - apply (D 50); lia.
  - apply (D 51); lia.
  - apply (D 52); lia.
  - apply (N true (bs "5")); [vm_compute; repeat constructor; discriminate|discriminate|split; vm_compute; [discriminate|reflexivity]].
Qed.

(** * C18 *)
(** Once Error() is not nil, no call of the package changes it: for any client making any calls in any order ... *)
Theorem C18_first_error : forall A (c : client A) s e a s', Error s = Some e -> serve c s = Ok a s' -> Error s' = Some e.
Proof. intros A c s e a s' H E. exact (keeps_serve A c s e a s' H E). Qed.
Print Assumptions C18_first_error.
(** ... for ReportError itself, which records the first one ... *)
Theorem C18_report : forall s e, Error (ReportError e s) = match Error s with None => Some e | x => x end.
Proof. intros s e. unfold Error. rewrite ReportError_err. now destruct (s_err s). Qed.
Print Assumptions C18_report.
(** ... for the readers of ranges, and for Parse with any lexer that does not itself replace the error. *)
Theorem C18_ranges : forall fuel s e, Error s = Some e ->
  (forall space t v s', UnicodeRange fuel space t s = Ok v s' -> Error s' = Some e) /\
  (forall space i x v s', UnicodeRanges fuel space i x s = Ok v s' -> Error s' = Some e) /\
  (forall n t v s', SkipUnicodeRange fuel n t s = Ok v s' -> Error s' = Some e) /\
  (forall n v s', UnicodeSpace fuel n s = Ok v s' -> Error s' = Some e).
Proof.
  intros fuel s e H. repeat split; intros.
  - eapply keeps_UnicodeRange; eauto.
  - eapply keeps_UnicodeRanges; eauto.
  - eapply keeps_SkipUnicodeRange; eauto.
  - eapply keeps_UnicodeSpace; eauto.
Qed.
Print Assumptions C18_ranges.
Theorem C18_parse : forall V P I PT IT PP IP, keeps PT -> keeps IT ->
  (forall rec t, (forall p, keeps (rec p)) -> keeps (PP rec t)) ->
  (forall rec t l, (forall p, keeps (rec p)) -> keeps (IP rec t l)) ->
  forall fuel p s e v s', Error s = Some e -> Parse V P I PT IT PP IP fuel p s = Ok v s' -> Error s' = Some e.
Proof. intros V P I PT IT PP IP H1 H2 H3 H4 fuel p s e v s' H E. eapply keeps_Parse; eauto. Qed.
Print Assumptions C18_parse.
Example C18_ex : exists s', serve (Call (OConsume1 120) (fun _ => Call (OReport (ErrReader 5)) (fun _ => Call OUint64 (fun v => Call OConsume (fun _ => Done v))))) (NewSourceString (bs "12")) = Ok (VZ 0) s' /\
  Error s' = Some (ErrMsg (bs "expect x but found 1")).
Proof. eexists. split; vm_compute; reflexivity. Qed.
