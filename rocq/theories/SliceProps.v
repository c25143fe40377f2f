(** Properties C43 and C66: reflect2's slices. *)
From Verif Require Import Base SliceModel SliceSpec SliceProofs.
Open Scope Z_scope.
Open Scope list_scope.

Section Claims.
  Variable A : Type.
  Variable zero : A.
  Variable fits : Z -> bool.
  Variable fuel : nat.
  Hypothesis enough : (300 <= fuel)%nat.
  Local Notation append := (UnsafeAppend A zero fits fuel).
  Local Notation grow := (UnsafeGrow A zero fits fuel).
  Local Notation step := (step A zero fits fuel).

  (** * C43: the operations of UnsafeSliceType *)

  (** Append is Go's append: the elements and the new one; in place if there is room (nothing else is written), and else in a new array,
      where the old one stays as it is.  The only panic is that of an allocation *)
  Theorem C43_append : forall m h l x, wf A m h -> holds A m h l -> Len h < 2 ^ 62 ->
    match append m h x with
    | Done (m', h') => wf A m' h' /\ holds A m' h' (l ++ [x]) /\
      (Len h < Cap h -> Data h' = Data h /\ Cap h' = Cap h /\ keeps A m m' (place h (Len h))) /\
      (Len h = Cap h -> Data h' = Some (List.length m, 0) /\ Len h < Cap h' <= 2 * Len h + 1 /\ keeps A m m' None)
    | Panics => Len h = Cap h /\ exists c, Len h < c <= 2 * Len h + 1 /\ fits c = false
    | _ => False
    end.
  Proof.
    intros m h l x W H Hl. pose proof (append_ok A zero fits fuel m h x enough W Hl) as E. destruct (append m h x) as [[m' h']| | |]; try exact E.
    destruct E as (W' & L' & E1 & E2). assert (R := proj1 W). split; [exact W'|]. split.
    - destruct H as [H1 H2]. split; [rewrite lenZ_app, H1, L'; reflexivity|]. intros i Hi. rewrite nthZ_app, H1.
      destruct (Z.lt_ge_cases (Len h) (Cap h)) as [C|C].
      + destruct (E1 C) as (_ & _ & _ & _ & It). rewrite It. destruct (Z.ltb_spec i (Len h)) as [D|D].
        * replace (i =? Len h) with false by lia. apply H2. lia.
        * replace (i =? Len h) with true by lia. now replace (i - Len h) with 0 by lia.
      + destruct (E2 ltac:(lia)) as (_ & C' & _ & _ & It). rewrite It by lia. destruct (Z.ltb_spec i (Len h)) as [D|D]; [apply H2; lia|].
        replace (i =? Len h) with true by lia. now replace (i - Len h) with 0 by lia.
    - split; intro C; [destruct (E1 C) as (? & ? & ? & _)|destruct (E2 C) as (? & ? & ? & _)]; auto.
  Qed.
  (** Grow beyond the capacity: the elements, and zeros; the old array stays as it is *)
  Theorem C43_grow : forall m h l n, wf A m h -> holds A m h l -> Cap h < n <= 2 ^ 62 ->
    match grow m h n with
    | Done (m', h') => wf A m' h' /\ holds A m' h' (l ++ zeros A zero (n - Len h)) /\ n <= Cap h' < 2 * n /\ Data h' = Some (List.length m, 0) /\ keeps A m m' None
    | Panics => exists c, n <= c < 2 * n /\ fits c = false
    | _ => False
    end.
  Proof.
    intros m h l n W H Hn. assert (R := proj1 W). pose proof (grow_ok A zero fits fuel m h n enough W ltac:(lia)) as E. destruct (grow m h n) as [[m' h']| | |]; try exact E; [|apply E].
    destruct E as (W' & L' & K & _ & E2). destruct (E2 ltac:(lia)) as (D & C & Ln & It). assert (HL := proj1 H).
    split; [exact W'|]. split; [|auto]. rewrite <- HL. destruct (own_grow A zero m' h' h l m n H W W' L' ltac:(lia) It) as (_ & O & _); [|exact O].
    rewrite D. intros a k [= <- <-]. lia.
  Qed.
  (** Grow within the capacity is s = s[:n]: it changes no memory, and shows what is there *)
  Theorem C43_regrow : forall m h n, wf A m h -> 0 <= n <= Cap h -> exists h', grow m h n = Done (m, h') /\ wf A m h' /\ Len h' = n /\ Cap h' = Cap h /\
    forall i, item A m h' i = item A m h i.
  Proof.
    intros m h n W Hn. unfold UnsafeGrow. replace (n <=? Cap h) with true by lia. eexists. split; [reflexivity|].
    split; [split; [cbn [Len Cap]; lia|intros i Hi; apply (proj2 W); exact Hi]|]. auto.
  Qed.
  (** Truncation keeps the first elements *)
  Theorem C43_truncate : forall m h l n, wf A m h -> holds A m h l -> 0 <= n <= Len h -> exists h', grow m h n = Done (m, h') /\ wf A m h' /\ holds A m h' (firstn (Z.to_nat n) l).
  Proof.
    intros m h l n W [H1 H2] Hn. assert (R := proj1 W). destruct (C43_regrow m h n W ltac:(lia)) as (h' & E & W' & L' & _ & It). exists h'. split; [exact E|]. split; [exact W'|].
    split; [unfold lenZ in *; rewrite firstn_length; lia|]. intros i Hi. rewrite It, H2 by lia. unfold nthZ. replace (i <? 0) with false by lia.
    rewrite <- (firstn_skipn (Z.to_nat n) l) at 1. apply nth_error_app1. rewrite firstn_length. unfold lenZ in H1. lia.
  Qed.
  Theorem C43_set : forall m h l i x, wf A m h -> holds A m h l -> 0 <= i < Len h -> exists m', UnsafeSetIndex A m h i x = Done m' /\
    (forall h2, wf A m h2 -> wf A m' h2) /\ holds A m' h (put A l i x) /\ keeps A m m' (place h i).
  Proof.
    intros m h l i x W [H1 H2] Hi. assert (R := proj1 W). destruct (set_ok A m h i x) as (m' & E & M & K & _); [apply (proj2 W); lia|]. exists m'. split; [exact E|].
    split; [intro h2; now apply wf_more|]. split; [|exact K]. split; [rewrite put_length; lia|]. intros j Hj. rewrite (set_items A _ _ _ _ _ E), put_nth by lia.
    destruct (j =? i); [reflexivity|]. now apply H2.
  Qed.
  (** GetIndex returns a pointer to the element itself: what is written through it is what SetIndex writes *)
  Theorem C43_get : forall m h l i, wf A m h -> holds A m h l -> 0 <= i < Len h -> exists p, UnsafeGetIndex h i = Some p /\ load A m p = nthZ l i /\
    forall x, UnsafeSetIndex A m h i x = access (store A m p x).
  Proof.
    intros m h l i W [H1 H2] Hi. assert (R := proj1 W). rewrite get_place. pose proof (H2 i Hi) as It. pose proof (proj2 W i ltac:(lia)) as Nn. unfold item in *.
    destruct (place h i) as [p|] eqn:P; [|now destruct Nn]. exists p. split; [reflexivity|]. split; [exact It|]. intro x. now rewrite set_place, P.
  Qed.
  (** The growth loop ends, with a capacity that is enough and less than twice that *)
  Theorem C43_capacity : forall cap expected, 0 <= cap < expected -> expected <= 2 ^ 62 -> exists c, calcNewCap fuel cap expected = Some c /\ expected <= c < 2 * expected.
  Proof. intros cap e Hc He. now apply calcNewCap_ok. Qed.
  (** A nil slice has no elements and no capacity; SetNil makes one, and Append, Grow beyond the capacity and MakeSlice do not *)
  Theorem C43_nil : forall m h, wf A m h ->
    (UnsafeIsNil h = true -> holds A m h [] /\ Cap h = 0) /\ (0 < Cap h -> UnsafeIsNil h = false) /\
    (UnsafeIsNil (UnsafeSetNil h) = true /\ wf A m (UnsafeSetNil h)) /\
    (forall x m' h', Len h < 2 ^ 62 -> append m h x = Done (m', h') -> UnsafeIsNil h' = false) /\
    (forall n c m' h', UnsafeMakeSlice A zero fits m n c = Done (m', h') -> UnsafeIsNil h' = false).
  Proof.
    intros m h W. assert (R := proj1 W).
    assert (P : forall m h, wf A m h -> 0 < Cap h -> UnsafeIsNil h = false).
    { intros m0 h0 W0 C. unfold UnsafeIsNil. destruct (Data h0) eqn:D; [reflexivity|]. destruct (proj2 W0 0 ltac:(lia)). unfold item, place. now rewrite D. }
    split; [|split; [exact (P m h W)|split; [split; [reflexivity|apply wf_nil]|split]]].
    - intro N. destruct (Z.eq_dec (Cap h) 0) as [C|C]; [|rewrite (P m h W) in N by lia; discriminate N]. split; [|exact C]. split; [change (lenZ []) with 0; lia|]. intros i Hi. lia.
    - intros x m' h' Hl E. pose proof (append_ok A zero fits fuel m h x enough W Hl) as K. rewrite E in K. destruct K as (W' & L' & _). assert (R' := proj1 W'). apply (P m' h' W'). lia.
    - intros n c m' h' E. unfold UnsafeMakeSlice in E. destruct (unsafe_NewArray A zero fits m c) as [[m1 p]| | |]; try discriminate E. cbn [bind] in E. injection E as _ <-. reflexivity.
  Qed.
  (** n times Append copy at most 6 n elements *)
  Theorem C43_linear : forall l, lenZ l <= 2 ^ 62 -> copied A append [] nilSlice l <= 6 * lenZ l.
  Proof. intros l Hl. pose proof (copied_ok A zero fits fuel l [] nilSlice 0 enough (wf_nil A []) ltac:(cbn; lia) ltac:(cbn; lia) ltac:(cbn [Len nilSlice]; lia)) as C. cbn [Len nilSlice] in C. lia. Qed.

  (** Every program with any number of slices that do not share arrays: the slices hold what the operations on lists make, and what is
      read is what they give; the only panic is that of an allocation *)
  Theorem C43_history : forall l, propers A zero (none A) l ->
    match run A step (start A) l with
    | Done s => (forall v, wf A (mem A s) (vars A s v) /\ holds A (mem A s) (vars A s v) (fst (effects A zero (none A) l) v)) /\ out A s = snd (effects A zero (none A) l)
    | Panics => exists c, 0 <= c <= 2 ^ 63 /\ fits c = false
    | _ => False
    end.
  Proof.
    intros l P. pose proof (inv_run A zero fits fuel l (start A) (none A) enough (inv_start A zero) P) as E. destruct (run A step (start A) l); try exact E.
    destruct E as [I O]. split; [|exact O]. intro v. destruct (proj1 I v) as (W & H & _). auto.
  Qed.
  (** Every program, also with slices that share arrays and with pointers to elements, whose indices are within the lengths: no access
      outside an array, and all slices stay as Go's *)
  Theorem C43_safe : forall l, insides A step (start A) l -> match run A step (start A) l with Done s => good A s | Panics => True | _ => False end.
  Proof. intros l P. now apply good_run; [|apply good_start|]. Qed.

  (** * C66: the safe implementation *)
  Variable reflectCap : Z -> Z -> Z.
  Hypothesis reflectCap_enough : forall c n, 0 <= n -> n <= reflectCap c n.
  Local Notation safeStep := (safeStep A zero fits reflectCap).

  (** No program at all accesses memory outside an array *)
  Theorem C66_safe : forall l, match run A safeStep (start A) l with Done s => good A s | Panics => True | _ => False end.
  Proof. intro l. apply safe_good_run; [exact reflectCap_enough|apply good_start]. Qed.
  (** Without Grow both implementations give the same elements and read the same *)
  Theorem C66_agree : forall l, propers A zero (none A) l -> Forall (fun o => match o with OGrow _ _ _ => False | _ => True end) l -> (forall c, fits c = true) ->
    exists s s' L, run A step (start A) l = Done s /\ run A safeStep (start A) l = Done s' /\ out A s = out A s' /\
      forall v, holds A (mem A s) (vars A s v) (L v) /\ holds A (mem A s') (vars A s' v) (L v).
  Proof.
    intros l P Ng F. pose proof (inv_run A zero fits fuel l (start A) (none A) enough (inv_start A zero) P) as E.
    pose proof (safe_inv_run A zero fits reflectCap reflectCap_enough l (start A) (none A) (inv_start A zero) P Ng) as E'.
    destruct (run A step (start A) l) as [s| | |]; try contradiction; [|destruct E as (c & _ & E); rewrite F in E; discriminate].
    destruct (run A safeStep (start A) l) as [s'| | |]; try contradiction; [|destruct E' as (c & E'); rewrite F in E'; discriminate].
    destruct E as [I O], E' as [I' O']. exists s, s', (fst (effects A zero (none A) l)). split; [reflexivity|]. split; [reflexivity|]. split; [congruence|].
    intro v. split; [apply (proj1 I v)|apply (proj1 I' v)].
  Qed.
  (** Outside the length the safe implementation panics *)
  Theorem C66_panics : forall m h i x, wf A m h -> ~ (0 <= i < Len h) -> safeSetIndex A m h i x = Panics /\ safeGetIndex A m h i = Panics.
  Proof.
    intros m h i x W N. unfold safeSetIndex, safeGetIndex. destruct (Z.leb_spec 0 i); cbn [andb]; [|auto]. destruct (Z.ltb_spec i (Len h)); [lia|auto].
  Qed.
  (** Grow of the safe implementation panics, unless it is asked for the capacity that there is: then it does nothing, and in particular
      does not change the length *)
  Theorem C66_grow_refuted : forall m h n, 0 <= Cap h < 2 ^ 63 -> 0 <= n < 2 ^ 63 -> safeGrow A m h n = if n =? Cap h then Done (m, h) else Panics.
  Proof.
    intros m h n Hc Hn. unfold safeGrow. rewrite int64_id by lia. destruct (Z.eqb_spec (n - Cap h) 0); destruct (Z.eqb_spec n (Cap h)); try reflexivity; lia.
  Qed.
End Claims.

(** * What is not so *)

(** A program with enough memory, and elements that are numbers *)
Definition any : Z -> bool := fun _ => true.
Definition goCap : Z -> Z -> Z := fun c n => Z.max (2 * c) n.
Local Notation unsafe_run := (run Z (step Z 0 any 400) (start Z)).
Local Notation safe_run := (run Z (safeStep Z 0 any goCap) (start Z)).

(** The elements, for the examples *)
Definition shown (s : state Z) (v : nat) : list (option Z) := map (fun i => item Z (mem Z s) (vars Z s v) (Z.of_nat i)) (seq 0 (Z.to_nat (Len (vars Z s v)))).

(** SetIndex behind the length writes into another slice, where the safe implementation panics *)
Definition ex_share : list (op Z) := [OMake Z 0 4 4; OSlice Z 1 0 0 2 2; OSlice Z 2 0 2 4 4; OSet Z 1 2 7].
Theorem C43_index_refuted : exists s, unsafe_run ex_share = Done s /\ Len (vars Z s 1) = 2 /\ shown s 2 = [Some 7; Some 0] /\ safe_run ex_share = Panics.
Proof. eexists. split; [vm_compute; reflexivity|]. repeat split; vm_compute; reflexivity. Qed.
(** Behind the array, or before it, anything can happen; MakeSlice does not check its arguments, Grow takes negative lengths *)
Theorem C43_outside_refuted :
  unsafe_run [OMake Z 0 1 1; OSet Z 0 1 7] = Outside /\ unsafe_run [OMake Z 0 1 1; ORead Z 0 (-1)] = Outside /\ unsafe_run [ORead Z 0 0] = Outside /\
  unsafe_run [OMake Z 0 5 1; ORead Z 0 3] = Outside /\ unsafe_run [OMake Z 0 1 1; OGrow Z 0 (-1); OAppend Z 0 7] = Outside /\
  safe_run [OMake Z 0 5 1] = Panics /\ exists s, unsafe_run [OMake Z 0 1 1; OGrow Z 0 (-1)] = Done s /\ Len (vars Z s 0) = -1.
Proof. repeat match goal with |- _ /\ _ => split end; try (vm_compute; reflexivity). eexists. split; vm_compute; reflexivity. Qed.
(** Grow within the capacity shows old elements, not zeros *)
Theorem C43_stale_refuted : exists s, unsafe_run [OAppend Z 0 7; OAppend Z 0 8; OGrow Z 0 0; OGrow Z 0 2] = Done s /\ shown s 0 = [Some 7; Some 8].
Proof. eexists. split; vm_compute; reflexivity. Qed.
(** From this capacity, which is a little less than 2^63, the loop does not end whatever is expected: the capacity wraps around to -2^63,
    becomes 0 and stays there.  (With elements of size 0 that is possible.) *)
Definition huge : Z := 7378697629483820647.
Theorem C43_forever_refuted : forall fuel expected, huge < expected -> calcNewCap fuel huge expected = None.
Proof.
  intros fuel e He. unfold calcNewCap. change (huge =? 0) with false. cbv iota. assert (P : 0 < huge) by reflexivity.
  apply (capLoop_below 2); [|lia|vm_compute; reflexivity]. cbn [below]. change (nextCap huge) with (- 2 ^ 63). rewrite (proj2 (Z.ltb_lt _ _) He). now rewrite (proj2 (Z.ltb_lt (- 2 ^ 63) e) ltac:(lia)).
Qed.
Theorem C43_diverges_refuted : forall A (zero : A) fuel, run A (step A zero any fuel) (start A) [OMake A 0 huge huge; OAppend A 0 zero] = Diverges.
Proof.
  intros A zero fuel. cbn [run]. assert (E : step A zero any fuel (start A) (OMake A 0 huge huge) = Done (setVar A (start A) [zeros A zero huge] 0 (mkH (Some (0%nat, 0)) huge huge))).
  { cbn [step]. rewrite make_cases. reflexivity. }
  rewrite E. cbn [bind]. cbn [step vars setVar Nat.eqb]. unfold UnsafeAppend. cbv zeta. cbn [Len]. change (int64 (huge + 1)) with (huge + 1). unfold UnsafeGrow. cbn [Cap]. change (huge + 1 <=? huge) with false. cbv iota.
  rewrite C43_forever_refuted by reflexivity. reflexivity.
Qed.
(** Appending to a slice of the greatest length makes the length negative *)
Theorem C43_overflow_refuted : forall A (zero : A) fuel m h x, Len h = 2 ^ 63 - 1 -> Cap h = 2 ^ 63 - 1 -> UnsafeGrow A zero any fuel m h (int64 (Len h + 1)) = Done (m, mkH (Data h) (- 2 ^ 63) (2 ^ 63 - 1)) /\
  (forall m' h', UnsafeAppend A zero any fuel m h x = Done (m', h') -> Len h' = - 2 ^ 63).
Proof.
  intros A zero fuel m h x L C. rewrite L. change (int64 (2 ^ 63 - 1 + 1)) with (- 2 ^ 63). assert (G : UnsafeGrow A zero any fuel m h (- 2 ^ 63) = Done (m, mkH (Data h) (- 2 ^ 63) (2 ^ 63 - 1))).
  { unfold UnsafeGrow. rewrite C. reflexivity. }
  split; [exact G|]. intros m' h' E. unfold UnsafeAppend in E. cbv zeta in E. rewrite L in E. change (int64 (2 ^ 63 - 1 + 1)) with (- 2 ^ 63) in E. rewrite G in E. cbn [bind] in E.
  destruct (UnsafeSetIndex A _ _ _ _); cbn [bind] in E; try discriminate. injection E as _ <-. reflexivity.
Qed.
(** The claim without bounds *)
Definition C43_full : Prop := forall fits l, match run Z (step Z 0 fits 400) (start Z) l with Done s => good Z s | Panics => True | _ => False end.
Theorem C43_full_refuted : ~ C43_full.
Proof. intro H. specialize (H any [OMake Z 0 1 1; OSet Z 0 1 7]). destruct C43_outside_refuted as (E & _). rewrite E in H. exact H. Qed.
(** The implementations differ in what GetIndex points to: the element, or a copy *)
Definition ex_pointer : list (op Z) := [OAppend Z 0 1; OGet Z 0 0; OStore Z 0 9; ORead Z 0 0].
Theorem C66_pointer_refuted : exists s s', unsafe_run ex_pointer = Done s /\ safe_run ex_pointer = Done s' /\ out Z s = [9] /\ out Z s' = [1].
Proof. do 2 eexists. repeat match goal with |- _ /\ _ => split end; vm_compute; reflexivity. Qed.
(** The claim that both implementations are the same: programs within the bounds *)
Definition C66_full : Prop := forall l, insides Z (step Z 0 any 400) (start Z) l -> match unsafe_run l, safe_run l with Done s, Done s' => out Z s = out Z s' | Panics, Panics => True | _, _ => False end.
Theorem C66_full_refuted : ~ C66_full.
Proof.
  intro H. specialize (H [OGrow Z 0 1; ORead Z 0 0]). assert (I : insides Z (step Z 0 any 400) (start Z) [OGrow Z 0 1; ORead Z 0 0]) by (vm_compute; repeat split; try discriminate; reflexivity).
  specialize (H I). vm_compute in H. exact H.
Qed.

(** * Examples *)
Definition ex_proper : list (op Z) := [OMake Z 1 2 3; OAppend Z 0 5; OAppend Z 0 6; OAppend Z 1 7; OAppend Z 1 8; OGrow Z 0 5; OSet Z 0 1 9; ORead Z 0 1; OAppend Z 0 10; OSetNil Z 1; OAppend Z 1 11; ORead Z 1 0; ORead Z 0 4].
Example C43_history_example : propers Z 0 (none Z) ex_proper /\ exists s, unsafe_run ex_proper = Done s /\ shown s 0 = map Some [5; 9; 0; 0; 0; 10] /\ shown s 1 = [Some 11] /\ out Z s = [9; 11; 0].
Proof. split; [vm_compute; repeat split; try discriminate; reflexivity|]. eexists. split; [vm_compute; reflexivity|]. repeat split; vm_compute; reflexivity. Qed.
Definition ex_nogrow : list (op Z) := [OMake Z 1 2 3; OAppend Z 0 5; OAppend Z 0 6; OAppend Z 1 7; OAppend Z 1 8; OSet Z 0 1 9; ORead Z 0 1; OSetNil Z 1; OAppend Z 1 11; ORead Z 1 0].
Example C66_agree_example : propers Z 0 (none Z) ex_nogrow /\ Forall (fun o => match o with OGrow _ _ _ => False | _ => True end) ex_nogrow /\ (forall c, any c = true) /\ (forall c n, 0 <= n -> n <= goCap c n) /\
  exists s', safe_run ex_nogrow = Done s' /\ shown s' 0 = map Some [5; 9] /\ shown s' 1 = [Some 11] /\ out Z s' = [9; 11].
Proof.
  split; [vm_compute; repeat split; try discriminate; reflexivity|]. split; [repeat constructor|]. split; [reflexivity|]. split; [unfold goCap; lia|].
  eexists. split; [vm_compute; reflexivity|]. repeat split; vm_compute; reflexivity.
Qed.
(** Two slices that share an array: append within the capacity writes into the other one, as in Go *)
Definition ex_inside : list (op Z) := [OMake Z 0 4 4; OSlice Z 1 0 0 2 4; OGet Z 0 2; OAppend Z 1 7; OLoad Z 0; OStore Z 0 8; ORead Z 1 2; OAssign Z 2 0; OGrow Z 2 1; OGrow Z 2 9; OSet Z 2 0 3; ORead Z 0 0].
Example C43_safe_example : insides Z (step Z 0 any 400) (start Z) ex_inside /\ exists s, unsafe_run ex_inside = Done s /\ shown s 0 = map Some [0; 0; 8; 0] /\ out Z s = [7; 8; 0] /\ Cap (vars Z s 2) = 16.
Proof. split; [vm_compute; repeat split; try discriminate; reflexivity|]. eexists. split; [vm_compute; reflexivity|]. repeat split; vm_compute; reflexivity. Qed.
Example C43_operations_example : let h := mkH (Some (0%nat, 1)) 2 3 in let m := [[1; 2; 3; 4; 5]] in
  wf Z m h /\ holds Z m h [2; 3] /\ UnsafeAppend Z 0 any 400 m h 9 = Done ([[1; 2; 3; 9; 5]], mkH (Some (0%nat, 1)) 3 3) /\
  UnsafeAppend Z 0 any 400 [[1; 2; 3; 9; 5]] (mkH (Some (0%nat, 1)) 3 3) 8 = Done ([[1; 2; 3; 9; 5]; [2; 3; 9; 8; 0; 0]], mkH (Some (1%nat, 0)) 4 6) /\
  UnsafeGrow Z 0 any 400 m h 4 = Done ([[1; 2; 3; 4; 5]; [2; 3; 0; 0; 0; 0]], mkH (Some (1%nat, 0)) 4 6) /\ UnsafeGrow Z 0 any 400 m h 3 = Done (m, mkH (Some (0%nat, 1)) 3 3) /\
  UnsafeSetIndex Z m h 1 7 = Done [[1; 2; 7; 4; 5]] /\ UnsafeGetIndex h 1 = Some (0%nat, 2).
Proof.
  cbv zeta. split; [split; [cbn; lia|]|split; [split; [reflexivity|]|repeat split; vm_compute; reflexivity]].
  - cbn [Cap]. intros i Hi. assert (C : i = 0 \/ i = 1 \/ i = 2) by lia. destruct C as [->|[-> | ->]]; discriminate.
  - cbn [Len]. intros i Hi. assert (C : i = 0 \/ i = 1) by lia. destruct C as [-> | ->]; reflexivity.
Qed.
Example C43_capacity_example : calcNewCap 400 3 100 = Some 192 /\ calcNewCap 400 1024 (2 ^ 62) = Some 5122612298646245306 /\ calcNewCap 400 0 17 = Some 17 /\
  copied Z (UnsafeAppend Z 0 any 400) [] nilSlice (repeat 1 100) = 127.
Proof. repeat split; vm_compute; reflexivity. Qed.
Example C43_overflow_example : Len (mkH (Some (0%nat, 0)) (2 ^ 63 - 1) (2 ^ 63 - 1)) = 2 ^ 63 - 1 /\ exists m', UnsafeSetIndex Z [[5]] (mkH (Some (0%nat, 1 - 2 ^ 63)) 0 0) (2 ^ 63 - 1) 6 = Done m'.
Proof. split; [reflexivity|]. eexists. vm_compute. reflexivity. Qed.
Example C43_nil_example : UnsafeIsNil (mkH (Some (0%nat, 1)) 0 0) = false /\ UnsafeIsNil nilSlice = true /\ UnsafeIsNil (UnsafeSetNil (mkH (Some (0%nat, 1)) 1 2)) = true /\
  exists m h, UnsafeAppend Z 0 any 400 [] nilSlice 7 = Done (m, h) /\ UnsafeIsNil h = false.
Proof. repeat split. do 2 eexists. split; [vm_compute; reflexivity|reflexivity]. Qed.
Example C66_grow_example : safeGrow Z [[1; 2]] (mkH (Some (0%nat, 0)) 1 2) 2 = Done ([[1; 2]], mkH (Some (0%nat, 0)) 1 2) /\ safeGrow Z [[1; 2]] (mkH (Some (0%nat, 0)) 1 2) 3 = Panics.
Proof. split; vm_compute; reflexivity. Qed.

Print Assumptions C43_append.
Print Assumptions C43_grow.
Print Assumptions C43_regrow.
Print Assumptions C43_truncate.
Print Assumptions C43_set.
Print Assumptions C43_get.
Print Assumptions C43_capacity.
Print Assumptions C43_linear.
Print Assumptions C43_nil.
Print Assumptions C43_history.
Print Assumptions C43_safe.
Print Assumptions C43_index_refuted.
Print Assumptions C43_outside_refuted.
Print Assumptions C43_stale_refuted.
Print Assumptions C43_forever_refuted.
Print Assumptions C43_diverges_refuted.
Print Assumptions C43_overflow_refuted.
Print Assumptions C43_full_refuted.
Print Assumptions C66_safe.
Print Assumptions C66_agree.
Print Assumptions C66_panics.
Print Assumptions C66_grow_refuted.
Print Assumptions C66_pointer_refuted.
Print Assumptions C66_full_refuted.
