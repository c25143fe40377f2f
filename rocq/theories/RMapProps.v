(** Properties C77-C79: reflect2's maps. *)
From Verif Require Import Base RMapModel RMapSpec RMapProofs.
From Coq Require Import Sorting.Permutation.
Open Scope list_scope.

(** Keys of the examples: numbers; 7 stands for NaN *)
Definition x_eq (a b : nat) : bool := Nat.eqb a b && negb (Nat.eqb a 7).
Lemma x_key : key_equality x_eq.
Proof.
  split; unfold x_eq; intros.
  - rewrite Nat.eqb_sym. destruct (Nat.eqb_spec b a); [now subst|reflexivity].
  - apply andb_true_iff in H, H0. destruct H as [H N], H0 as [H0 N0]. apply Nat.eqb_eq in H, H0. subst. now rewrite Nat.eqb_refl, N0.
Qed.
Definition none (_ : nat) := false.
Definition x_zero (_ : nat) := 0%nat.
(** m := map[int]int{1: 10, 2: 20} in the variable 1, header 0, slots 2 and 3; the variable 4 has the value 30; variable 5 of the map type is nil *)
Definition x_heap : mheap nat nat :=
  MH (fun x => match x with 2 => 10 | 3 => 20 | 4 => 30 | _ => 0 end%nat) (fun b => if Nat.eqb b 0 then Some [(1, 2); (2, 3)]%nat else None)
    (fun p => if Nat.eqb p 1 then Some 0%nat else None) 6.
Lemma x_ok : heap_ok x_eq x_heap /\ holds_map x_heap 1 0 /\ ~ slots x_heap 0 4.
Proof.
  assert (SL : forall b s, slots x_heap b s -> b = 0%nat /\ (s = 2 \/ s = 3)%nat).
  { intros b s (l & E & I). cbn in E. destruct (Nat.eqb_spec b 0); [|discriminate]. injection E as <-. cbn in I. intuition. }
  split; [split; [|split]|split].
  - intros b l E. cbn in E. destruct (Nat.eqb_spec b 0); [|discriminate]. injection E as <-. subst. cbn. split; [|split; [|lia]].
    + repeat constructor; cbn; intuition discriminate.
    + repeat constructor.
  - intros b s I. apply SL in I. cbn. lia.
  - intros b b' s I I'. apply SL in I. apply SL in I'. lia.
  - split; [reflexivity|discriminate].
  - intros I. apply SL in I. lia.
Qed.

(** * C77: SetIndex and GetIndex *)

(** SetIndex with a variable that is no slot of the map: both implementations do the same, whatever elements the runtime moves: the key has that
    value, other keys keep theirs, nothing else changes *)
Theorem C77_set_partial : forall K V keq hb zeroV keyUpdate evacuated moves (h : mheap K V) p b k e,
  key_equality keq -> can_hash hb k -> heap_ok keq h -> holds_map h p b -> (e < nxt h)%nat -> ~ slots h b e ->
  exists h', USetIndex K V keq hb zeroV keyUpdate evacuated moves h (OMapPtr (Some p)) (OKeyPtr (Some k)) (OElemPtr (Some e)) = RDone h' tt /\
    SSetIndex K V keq hb zeroV keyUpdate evacuated moves h (OMapPtr (Some p)) (OKeyPtr (Some k)) (OElemPtr (Some e)) = RDone h' tt /\
    heap_ok keq h' /\ (keys_hash hb h -> keys_hash hb h') /\ holds_map h' p b /\
    (forall k', value_of keq (contents h' b) k' = if keq k' k then Some (vars h e) else value_of keq (contents h b) k') /\ others_same h h' b.
Proof.
  intros K V keq hb zeroV ku ev moves h p b k e KEQ CH OK [MV HD] L NS. destruct (assign_ok K V keq hb zeroV ku ev KEQ moves h b k e CH OK HD L NS) as (h' & E & OK' & HD' & C & O).
  exists h'. unfold USetIndex, SSetIndex. rewrite MV. split; [exact E|]. split; [exact E|]. split; [exact OK'|].
  split; [intros KH; eapply (assign_keys K V keq hb zeroV ku ev); eauto|]. split; [|split; assumption].
  split; [|exact HD']. destruct O as [-> _]. exact MV.
Qed.
Print Assumptions C77_set_partial.
Example C77_set_example : exists h', USetIndex nat nat x_eq None 0%nat true x_zero (fun s => Nat.eqb s 2) x_heap (OMapPtr (Some 1%nat)) (OKeyPtr (Some 5%nat)) (OElemPtr (Some 4%nat)) = RDone h' tt /\
  contents h' 0 = [(1, 10); (2, 20); (5, 30)]%nat /\ hdrs h' 0 = Some [(1, 6); (2, 3); (5, 7)]%nat.
Proof. eexists. split; [reflexivity|]. split; reflexivity. Qed.

(** GetIndex: a pointer to the value of the key, nil if there is none.  For the unsafe one it is the slot; for the safe one a new variable *)
Theorem C77_get : forall K V keq hb (h : mheap K V) p b k, can_hash hb k -> heap_ok keq h -> holds_map h p b ->
  (exists s, UGetIndex K V keq hb h (OMapPtr (Some p)) (OKeyPtr (Some k)) = RDone h (OElemPtr s) /\ option_map (vars h) s = value_of keq (contents h b) k /\
     (forall x, s = Some x -> slots h b x) /\
     UTryGetIndex K V keq hb h (OMapPtr (Some p)) (OKeyPtr (Some k)) = RDone h (match s with Some x => (OElemPtr (Some x), true) | None => (ONil, false) end)) /\
  (exists h' q, SGetIndex K V keq hb h (OMapPtr (Some p)) (OKeyPtr (Some k)) = RDone h' (OElemPtr q) /\ same h h' /\ option_map (vars h') q = value_of keq (contents h b) k /\
     forall x, q = Some x -> (nxt h <= x)%nat).
Proof.
  intros K V keq hb h p b k CH OK [MV HD]. apply (proj1 (hashes_can K hb _)) in CH. destruct (hdrs h b) as [l|] eqn:E; [|contradiction].
  assert (CE : contents h b = pv K V h l) by (unfold contents; now rewrite E).
  assert (PE : pairsOf h b = l) by (unfold pairsOf; now rewrite E).
  split.
  - exists (findSlot K keq k l). unfold UGetIndex, UTryGetIndex, mapaccess. rewrite CH, MV, PE. cbn [negb].
    split; [|split; [|split]].
    + destruct l; reflexivity.
    + rewrite CE. apply findSlot_value.
    + intros x F. exists l. split; [exact E|]. eapply findSlot_in; eauto.
    + destruct l as [|x l]; [reflexivity|]. destruct (findSlot K keq k (x :: l)); reflexivity.
  - unfold SGetIndex, mapIndex. rewrite CH, MV, PE, CE, findSlot_value. cbn [negb]. destruct (value_of keq (pv K V h l) k) as [v|] eqn:VE.
    + destruct (newVar h v) as [h' n] eqn:N. destruct (new_same K V h v h' n N) as (S' & -> & EV). exists h', (Some (nxt h)).
      split; [reflexivity|]. split; [exact S'|]. split; [cbn; now rewrite EV|]. intros x X. injection X as <-. lia.
    + exists h, None. split; [reflexivity|]. split; [split; [reflexivity|split; [reflexivity|split; [lia|reflexivity]]]|]. split; [reflexivity|discriminate].
Qed.
Print Assumptions C77_get.
Example C77_get_example : UGetIndex nat nat x_eq None x_heap (OMapPtr (Some 1%nat)) (OKeyPtr (Some 2%nat)) = RDone x_heap (OElemPtr (Some 3%nat)) /\
  UTryGetIndex nat nat x_eq None x_heap (OMapPtr (Some 1%nat)) (OKeyPtr (Some 9%nat)) = RDone x_heap (ONil, false).
Proof. split; reflexivity. Qed.

(** A program that sets elements of a map by either implementation, and makes and changes variables of its own in between.
    [after h0 p history h]: h is the heap after the assignments of the history (the latest first) *)
Inductive after {K V} keq hb zeroV keyUpdate evacuated (h0 : mheap K V) (p : nat) : list (K * V) -> mheap K V -> Prop :=
| a_start : after keq hb zeroV keyUpdate evacuated h0 p [] h0
| a_unsafe hist h moves k e h' : after keq hb zeroV keyUpdate evacuated h0 p hist h -> (e < nxt h)%nat -> (forall b, ~ slots h b e) ->
    USetIndex K V keq hb zeroV keyUpdate evacuated moves h (OMapPtr (Some p)) (OKeyPtr (Some k)) (OElemPtr (Some e)) = RDone h' tt ->
    after keq hb zeroV keyUpdate evacuated h0 p ((k, vars h e) :: hist) h'
| a_safe hist h moves k e h' : after keq hb zeroV keyUpdate evacuated h0 p hist h -> (e < nxt h)%nat -> (forall b, ~ slots h b e) ->
    SSetIndex K V keq hb zeroV keyUpdate evacuated moves h (OMapPtr (Some p)) (OKeyPtr (Some k)) (OElemPtr (Some e)) = RDone h' tt ->
    after keq hb zeroV keyUpdate evacuated h0 p ((k, vars h e) :: hist) h'
| a_new hist h v h' n : after keq hb zeroV keyUpdate evacuated h0 p hist h -> newVar h v = (h', n) -> after keq hb zeroV keyUpdate evacuated h0 p hist h'
| a_write hist h x v : after keq hb zeroV keyUpdate evacuated h0 p hist h -> (forall b, ~ slots h b x) -> after keq hb zeroV keyUpdate evacuated h0 p hist (writeVar h x v).

Lemma make_ok : forall K V keq (h h1 : mheap K V) p, heap_ok keq h -> UMakeMap h = (h1, OMapPtr (Some p)) ->
  heap_ok keq h1 /\ exists b, holds_map h1 p b /\ contents h1 b = [].
Proof.
  intros K V keq h h1 p (O1 & O2 & O3) E. injection E as <- <-. 
  set (h1 := MH _ _ _ _).
  assert (SL : forall b s, slots h1 b s -> slots h b s).
  { intros b s (l & HL & I). cbn in HL. destruct (Nat.eqb_spec b (nxt h)); [injection HL as <-; contradiction|]. now exists l. }
  split; [split; [|split]|].
  - intros b l HL. cbn in HL. destruct (Nat.eqb_spec b (nxt h)) as [->|].
    + injection HL as <-. split; [constructor|]. split; [constructor|]. cbn. lia.
    + destruct (O1 b l HL) as (A & B & C). split; [exact A|]. split; [exact B|]. cbn. lia.
  - intros b s I. apply SL in I. apply O2 in I. cbn. lia.
  - intros b b' s I I'. eapply O3; eauto.
  - exists (nxt h). split.
    + split; cbn; [now rewrite Nat.eqb_refl|rewrite Nat.eqb_refl; discriminate].
    + unfold contents. cbn. now rewrite Nat.eqb_refl.
Qed.
Theorem C77_history_partial : forall K V keq hb zeroV keyUpdate evacuated (h0 h1 h : mheap K V) p history k,
  key_equality keq -> can_hash hb k -> heap_ok keq h0 -> UMakeMap h0 = (h1, OMapPtr (Some p)) -> after keq hb zeroV keyUpdate evacuated h1 p history h ->
  (exists s, UGetIndex K V keq hb h (OMapPtr (Some p)) (OKeyPtr (Some k)) = RDone h (OElemPtr s) /\ option_map (vars h) s = last_set keq history k) /\
  (exists h' q, SGetIndex K V keq hb h (OMapPtr (Some p)) (OKeyPtr (Some k)) = RDone h' (OElemPtr q) /\ option_map (vars h') q = last_set keq history k).
Proof.
  intros K V keq hb zeroV ku ev h0 h1 h p history k KEQ CH OK M A. destruct (make_ok K V keq h0 h1 p OK M) as (OK1 & b & HM & C0).
  assert (G : heap_ok keq h /\ holds_map h p b /\ forall k, value_of keq (contents h b) k = last_set keq history k).
  { induction A as [|hist h moves k0 e h' A IH L NS E|hist h moves k0 e h' A IH L NS E|hist h v h' n A IH E|hist h x v A IH NS].
    - split; [exact OK1|]. split; [exact HM|]. intros k'. now rewrite C0.
    - destruct IH as (O & HM' & VE). 
      assert (CK : can_hash hb k0).
      { destruct (hashes K hb (Some k0)) eqn:X; [exact (proj2 (hashes_can K hb _) X)|]. exfalso. unfold USetIndex, mapassign in E. rewrite (proj1 HM'), X in E. discriminate. }
      destruct (C77_set_partial K V keq hb zeroV ku ev moves h p b k0 e KEQ CK O HM' L (NS b)) as (h'' & E' & _ & O' & _ & HM'' & C & _).
      rewrite E in E'. injection E' as <-. split; [exact O'|]. split; [exact HM''|]. intros k'. rewrite C, VE. reflexivity.
    - destruct IH as (O & HM' & VE). 
      assert (CK : can_hash hb k0).
      { destruct (hashes K hb (Some k0)) eqn:X; [exact (proj2 (hashes_can K hb _) X)|]. exfalso. unfold SSetIndex, mapassign in E. rewrite (proj1 HM'), X in E. discriminate. }
      destruct (C77_set_partial K V keq hb zeroV ku ev moves h p b k0 e KEQ CK O HM' L (NS b)) as (h'' & _ & E' & O' & _ & HM'' & C & _).
      rewrite E in E'. injection E' as <-. split; [exact O'|]. split; [exact HM''|]. intros k'. rewrite C, VE. reflexivity.
    - destruct IH as (O & HM' & VE). destruct (new_same K V h v h' n E) as (S' & _ & _). destruct (same_ok K V keq h h' O S') as [O' CE].
      split; [exact O'|]. destruct S' as (MS & HS & _). split; [unfold holds_map in *; now rewrite MS, HS|]. intros k'. now rewrite CE.
    - destruct IH as (O & HM' & VE). split; [exact O|]. split; [exact HM'|]. intros k'. rewrite write_other by apply NS. apply VE. }
  destruct G as (O & HM' & VE). destruct (C77_get K V keq hb h p b k CH O HM') as [(s & E1 & E2 & _) (h' & q & E3 & _ & E4 & _)]. split.
  - exists s. split; [exact E1|]. now rewrite E2.
  - exists h', q. split; [exact E3|]. now rewrite E4.
Qed.
Print Assumptions C77_history_partial.
Example C77_history_example : exists h, after x_eq None 0%nat true x_zero (fst (UMakeMap x_heap)) 7 [(1, 30); (1, 0)]%nat h /\
  SGetIndex nat nat x_eq None h (OMapPtr (Some 7%nat)) (OKeyPtr (Some 1%nat)) = RDone (fst (newVar h 30%nat)) (OElemPtr (Some (nxt h))).
Proof.
  assert (NS : forall b, ~ slots (fst (UMakeMap x_heap)) b 4 /\ ~ slots (fst (UMakeMap x_heap)) b 0).
  { intros b. split; intros (l & E & I); cbn in E; destruct b as [|[|[|[|[|[|[|b]]]]]]]; cbn in E; try discriminate; injection E as <-; cbn in I; intuition discriminate. }
  set (h1 := fst (UMakeMap x_heap)) in *.
  set (h2 := match SSetIndex nat nat x_eq None 0%nat true x_zero none h1 (OMapPtr (Some 7%nat)) (OKeyPtr (Some 1%nat)) (OElemPtr (Some 0%nat)) with RDone h _ | RPanic h => h end).
  set (h3 := match USetIndex nat nat x_eq None 0%nat true x_zero (fun _ => true) h2 (OMapPtr (Some 7%nat)) (OKeyPtr (Some 1%nat)) (OElemPtr (Some 4%nat)) with RDone h _ | RPanic h => h end).
  exists h3. split; [|reflexivity]. change [(1, 30); (1, 0)]%nat with [(1%nat, vars h2 4); (1%nat, vars h1 0)].
  apply (a_unsafe x_eq None 0%nat true x_zero h1 7 [(1%nat, vars h1 0)] h2 (fun _ => true) 1%nat 4%nat h3).
  - apply (a_safe x_eq None 0%nat true x_zero h1 7 [] h1 none 1%nat 0%nat h2); [apply a_start|cbn; lia|intros b; apply NS|reflexivity].
  - cbn. lia.
  - intros b (l & E & I). cbn in E. destruct b as [|[|[|[|[|[|[|b]]]]]]]; cbn in E; try discriminate; injection E as <-; cbn in I; intuition discriminate.
  - reflexivity.
Qed.

(** A nil map: nothing in it; SetIndex panics, but for the safe one with a nil pointer as the element, which would delete *)
Theorem C77_nil_map : forall K V keq hb zeroV keyUpdate evacuated moves (h : mheap K V) p k e order, mvars h p = None ->
  USetIndex K V keq hb zeroV keyUpdate evacuated moves h (OMapPtr (Some p)) k e = RPanic h /\
  SSetIndex K V keq hb zeroV keyUpdate evacuated moves h (OMapPtr (Some p)) k (OElemPtr (Some 0%nat)) = RPanic h /\
  (forall k, can_hash hb k -> UGetIndex K V keq hb h (OMapPtr (Some p)) (OKeyPtr (Some k)) = RDone h (OElemPtr None) /\ SGetIndex K V keq hb h (OMapPtr (Some p)) (OKeyPtr (Some k)) = RDone h (OElemPtr None)) /\
  (forall k, can_hash hb k -> SSetIndex K V keq hb zeroV keyUpdate evacuated moves h (OMapPtr (Some p)) (OKeyPtr (Some k)) (OElemPtr None) = RDone h tt) /\
  (exists it, UIterate order h (OMapPtr (Some p)) = RDone h it /\ UHasNext it = false) /\
  (exists it, SIterate order h (OMapPtr (Some p)) = RDone h it /\ SHasNext it = false).
Proof.
  intros K V keq hb zeroV ku ev moves h p k e order MV. unfold USetIndex, SSetIndex, UGetIndex, SGetIndex, UIterate, SIterate, mapIndex, mapaccess. rewrite MV.
  split; [destruct k as [| | |[]| | | |]; try reflexivity; destruct e; reflexivity|]. split; [destruct k as [| | |[]| | | |]; reflexivity|].
  split; [intros k' CH; apply (proj1 (hashes_can K hb _)) in CH; rewrite CH; split; reflexivity|].
  split; [intros k' CH; apply (proj1 (hashes_can K hb _)) in CH; unfold mapdelete; rewrite CH; reflexivity|]. split; eexists; split; reflexivity.
Qed.
Print Assumptions C77_nil_map.
Example C77_nil_map_example : mvars x_heap 5 = None.
Proof. reflexivity. Qed.

(** A nil pointer as the key: the safe implementation panics, the unsafe one unless it reads a map without elements whose keys can all be hashed *)
Theorem C77_nil_key : forall K V keq hb zeroV keyUpdate evacuated moves (h : mheap K V) p b e, holds_map h p b ->
  SGetIndex K V keq hb h (OMapPtr (Some p)) (OKeyPtr None) = RPanic h /\
  SSetIndex K V keq hb zeroV keyUpdate evacuated moves h (OMapPtr (Some p)) (OKeyPtr None) e = RPanic h /\
  USetIndex K V keq hb zeroV keyUpdate evacuated moves h (OMapPtr (Some p)) (OKeyPtr None) e = RPanic h /\
  UGetIndex K V keq hb h (OMapPtr (Some p)) (OKeyPtr None) = match contents h b, hb with [], None => RDone h (OElemPtr None) | _, _ => RPanic h end.
Proof.
  intros K V keq hb zeroV ku ev moves h p b e [MV HD]. unfold USetIndex, SSetIndex, UGetIndex, SGetIndex, mapaccess, mapassign, contents, pairsOf. rewrite MV.
  split; [reflexivity|]. split; [reflexivity|]. split; [destruct e; reflexivity|]. destruct hb; [now destruct (hdrs h b) as [[|x l]|]|]. destruct (hdrs h b) as [[|x l]|]; reflexivity.
Qed.
Print Assumptions C77_nil_key.
Example C77_nil_key_example : UGetIndex nat nat x_eq None x_heap (OMapPtr (Some 1%nat)) (OKeyPtr None) = RPanic x_heap.
Proof. reflexivity. Qed.

(** A nil pointer as the element: the safe implementation deletes the key; the unsafe one panics, and leaves the zero value for a new key behind *)
Theorem C77_nil_element : forall K V keq hb zeroV keyUpdate evacuated moves (h : mheap K V) p b k,
  key_equality keq -> can_hash hb k -> heap_ok keq h -> holds_map h p b ->
  (exists h', SSetIndex K V keq hb zeroV keyUpdate evacuated moves h (OMapPtr (Some p)) (OKeyPtr (Some k)) (OElemPtr None) = RDone h' tt /\
     forall k', value_of keq (contents h' b) k' = if keq k' k then None else value_of keq (contents h b) k') /\
  (exists h', USetIndex K V keq hb zeroV keyUpdate evacuated moves h (OMapPtr (Some p)) (OKeyPtr (Some k)) (OElemPtr None) = RPanic h' /\
     (value_of keq (contents h b) k = None -> forall k', value_of keq (contents h' b) k' = if keq k' k then Some zeroV else value_of keq (contents h b) k')).
Proof.
  intros K V keq hb zeroV ku ev moves h p b k KEQ CH OK [MV HD]. split.
  - destruct (delete_ok K V keq hb ev KEQ moves h b k CH OK HD) as (h' & E & _ & _ & C & _). exists h'. unfold SSetIndex. rewrite MV, E. split; [reflexivity|exact C].
  - unfold USetIndex, mapassign. rewrite (proj1 (hashes_can K hb k) CH), MV. cbn [negb]. destruct (slotFor K V keq zeroV ku ev moves h b k) as [h' s] eqn:E. exists h'. split; [reflexivity|].
    intros N k'. pose proof (slot_new K V keq zeroV ku ev KEQ moves h b k OK HD N k') as H. rewrite E in H. exact H.
Qed.
Print Assumptions C77_nil_element.
Example C77_nil_element_example : exists h1 h2, SSetIndex nat nat x_eq None 0%nat true x_zero none x_heap (OMapPtr (Some 1%nat)) (OKeyPtr (Some 2%nat)) (OElemPtr None) = RDone h1 tt /\
  contents h1 0 = [(1, 10)]%nat /\ USetIndex nat nat x_eq None 0%nat true x_zero none x_heap (OMapPtr (Some 1%nat)) (OKeyPtr (Some 5%nat)) (OElemPtr None) = RPanic h2 /\
  contents h2 0 = [(1, 10); (2, 20); (5, 0)]%nat.
Proof. do 2 eexists. split; [reflexivity|]. split; [reflexivity|]. split; reflexivity. Qed.

(** A key that cannot be hashed, say a slice in an interface: every operation of both implementations panics and changes nothing, also if the map is
    empty or nil *)
Theorem C77_unhashable : forall K V keq hb zeroV zeroK keyUpdate evacuated moves (h : mheap K V) p k e, ~ can_hash hb k ->
  USetIndex K V keq hb zeroV keyUpdate evacuated moves h (OMapPtr (Some p)) (OKeyPtr (Some k)) (OElemPtr e) = RPanic h /\
  SSetIndex K V keq hb zeroV keyUpdate evacuated moves h (OMapPtr (Some p)) (OKeyPtr (Some k)) (OElemPtr e) = RPanic h /\
  UGetIndex K V keq hb h (OMapPtr (Some p)) (OKeyPtr (Some k)) = RPanic h /\
  UTryGetIndex K V keq hb h (OMapPtr (Some p)) (OKeyPtr (Some k)) = RPanic h /\
  SGetIndex K V keq hb h (OMapPtr (Some p)) (OKeyPtr (Some k)) = RPanic h /\
  (forall b, STryGetIndex K V keq hb zeroK h (OMap b) (OKey k) = RPanic h).
Proof.
  intros K V keq hb zeroV zeroK ku ev moves h p k e N. apply (hashes_cannot K hb) in N.
  unfold USetIndex, SSetIndex, UGetIndex, UTryGetIndex, SGetIndex, STryGetIndex, mapassign, mapdelete, mapaccess, mapIndex. rewrite N. cbn [negb].
  split; [destruct (mvars h p), e; reflexivity|]. split; [destruct e; [destruct (mvars h p)|]; reflexivity|]. repeat split.
Qed.
Print Assumptions C77_unhashable.
Example C77_unhashable_example : UGetIndex nat nat x_eq (Some (fun k => Nat.ltb k 9)) x_heap (OMapPtr (Some 5%nat)) (OKeyPtr (Some 9%nat)) = RPanic x_heap /\
  UGetIndex nat nat x_eq (Some (fun k => Nat.ltb k 9)) x_heap (OMapPtr (Some 1%nat)) (OKeyPtr (Some 8%nat)) = RDone x_heap (OElemPtr None).
Proof. split; reflexivity. Qed.

(** What fails: SetIndex with the pointer GetIndex gave, m[5] = m[1], when the map grows *)
Definition C77_full : Prop := forall K V keq hb zeroV keyUpdate evacuated moves (h : mheap K V) p b k e h',
  key_equality keq -> heap_ok keq h -> holds_map h p b -> (e < nxt h)%nat ->
  USetIndex K V keq hb zeroV keyUpdate evacuated moves h (OMapPtr (Some p)) (OKeyPtr (Some k)) (OElemPtr (Some e)) = RDone h' tt -> keq k k = true ->
  value_of keq (contents h' b) k = Some (vars h e).
Theorem C77_moved_refuted : exists h', UGetIndex nat nat x_eq None x_heap (OMapPtr (Some 1%nat)) (OKeyPtr (Some 1%nat)) = RDone x_heap (OElemPtr (Some 2%nat)) /\ vars x_heap 2 = 10%nat /\
  USetIndex nat nat x_eq None 0%nat true x_zero (fun _ => true) x_heap (OMapPtr (Some 1%nat)) (OKeyPtr (Some 5%nat)) (OElemPtr (Some 2%nat)) = RDone h' tt /\
  contents h' 0 = [(1, 10); (2, 20); (5, 0)]%nat.
Proof. eexists. split; [reflexivity|]. split; [reflexivity|]. split; reflexivity. Qed.
Print Assumptions C77_moved_refuted.
Theorem C77_full_refuted : ~ C77_full.
Proof.
  intros F. destruct C77_moved_refuted as (h' & _ & _ & E & C). destruct x_ok as (OK & HM & _).
  pose proof (F nat nat x_eq None 0%nat true x_zero (fun _ => true) x_heap 1%nat 0%nat 5%nat 2%nat h' x_key OK HM ltac:(cbn; lia) E eq_refl) as H. rewrite C in H. discriminate.
Qed.
Print Assumptions C77_full_refuted.

(** TryGetIndex of the safe implementation never works for a pointer to a map, only for a map and a key themselves *)
Theorem C77_try_refuted : forall K V keq hb zeroK (h : mheap K V) p key, STryGetIndex K V keq hb zeroK h (OMapPtr p) key = RPanic h /\
  forall b k, can_hash hb k -> hdrs h b <> None -> STryGetIndex K V keq hb zeroK h (OMap (Some b)) (OKey k) =
    RDone h (match value_of keq (contents h b) k with Some v => (OElem v, true) | None => (ONil, false) end).
Proof.
  intros K V keq hb zeroK h p key. split; [reflexivity|]. intros b k CH HD. apply (proj1 (hashes_can K hb _)) in CH. unfold STryGetIndex, mapIndex, pairsOf, contents.
  rewrite CH, findSlot_value. cbn [negb]. unfold pv. destruct (value_of _ _ k); reflexivity.
Qed.
Print Assumptions C77_try_refuted.
Example C77_try_example : STryGetIndex nat nat x_eq None 0%nat x_heap (OMap (Some 0%nat)) (OKey 2%nat) = RDone x_heap (OElem 20%nat, true).
Proof. reflexivity. Qed.

(** * C78: iteration *)

(** The loop for it.HasNext() { k, e := it.Next(); use *k, *e } of a program that does not change the map *)
Fixpoint loopU {K V} (fuel : nat) (h : mheap K V) (it : UIter K) : option (res K V (list (K * V))) :=
  match fuel with
  | O => None
  | S fuel =>
    if UHasNext it then
      match UNext h it with
      | RDone h (OKeyPtr (Some k), OElemPtr (Some s), it) =>
        match loopU fuel h it with Some (RDone h' l) => Some (RDone h' ((k, vars h s) :: l)) | r => r end
      | RDone h _ | RPanic h => Some (RPanic h)
      end
    else Some (RDone h [])
  end.
Fixpoint loopS {K V} keq hb (fuel : nat) (h : mheap K V) (it : SIter K) : option (res K V (list (K * V))) :=
  match fuel with
  | O => None
  | S fuel =>
    if SHasNext it then
      match SNext K V keq hb h it with
      | RDone h (OKeyPtr (Some k), OElemPtr (Some s), it) =>
        match loopS keq hb fuel h it with Some (RDone h' l) => Some (RDone h' ((k, vars h s) :: l)) | r => r end
      | RDone h _ | RPanic h => Some (RPanic h)
      end
    else Some (RDone h [])
  end.

(** The unsafe iterator gives every pair once *)
Theorem C78_unsafe : forall K V (h : mheap K V) p b l order, holds_map h p b -> hdrs h b = Some l -> Permutation order l ->
  exists it pairs, UIterate order h (OMapPtr (Some p)) = RDone h it /\ loopU (S (List.length l)) h it = Some (RDone h pairs) /\ Permutation pairs (contents h b).
Proof.
  intros K V h p b l order [MV _] E P. exists (Some order), (pv K V h order). split; [unfold UIterate; now rewrite MV|]. split.
  - rewrite <- (Permutation_length P). clear. 
    assert (U : forall n k s r, loopU (S n) h (Some ((k, s) :: r)) = match loopU n h (Some r) with Some (RDone h' l) => Some (RDone h' ((k, vars h s) :: l)) | r => r end) by reflexivity.
    induction order as [|[k s] r IH]; [reflexivity|]. change (List.length ((k, s) :: r)) with (S (List.length r)). rewrite U, IH. reflexivity.
  - unfold contents. rewrite E. now apply Permutation_map.
Qed.
Print Assumptions C78_unsafe.
Example C78_unsafe_example : loopU 3 x_heap (Some [(2, 3); (1, 2)]%nat) = Some (RDone x_heap [(2, 20); (1, 10)]%nat).
Proof. reflexivity. Qed.

Lemma own_value : forall K V keq (h : mheap K V) l k s, key_equality keq -> ForallOrdPairs (fun x y => keq (fst x) (fst y) = false) l -> In (k, s) l ->
  value_of keq (pv K V h l) k = if keq k k then Some (vars h s) else None.
Proof.
  intros K V keq h l k s KEQ F I. induction F as [|[k0 s0] r H F IH]; [contradiction|]. cbn [pv map value_of fst snd]. fold (pv K V h r).
  destruct (keq k k) eqn:R.
  - destruct I as [I|I].
    + injection I as -> ->. now rewrite R.
    + rewrite Forall_forall in H. pose proof (H _ I) as D. cbn [fst] in D. rewrite (keq_sym K keq KEQ k k0), D. now apply IH.
  - assert (N : keq k k0 = false).
    { destruct (keq k k0) eqn:A; [|reflexivity]. exfalso. rewrite (keq_same K keq KEQ k k0 k A) in R. congruence. }
    rewrite N. destruct I as [I|I].
    + injection I as -> ->. clear -KEQ R. induction r as [|[k1 s1] r IH]; [reflexivity|]. cbn [pv map value_of fst snd].
      destruct (keq k k1) eqn:A; [|exact IH]. rewrite (keq_same K keq KEQ k k1 k A) in R. congruence.
    + now apply IH.
Qed.

(** The safe one does so exactly if every key equals itself; otherwise it panics *)
Theorem C78_safe_partial : forall K V keq hb (h : mheap K V) p b l order, key_equality keq -> heap_ok keq h -> keys_hash hb h -> holds_map h p b -> hdrs h b = Some l -> Permutation order l ->
  exists it, SIterate order h (OMapPtr (Some p)) = RDone h it /\
    if forallb (fun x => keq (fst x) (fst x)) l
    then exists h' pairs, loopS keq hb (S (List.length l)) h it = Some (RDone h' pairs) /\ Permutation pairs (contents h b) /\ same h h'
    else exists h', loopS keq hb (S (List.length l)) h it = Some (RPanic h') /\ same h h'.
Proof.
  intros K V keq hb h p b l order KEQ OK KH HM E P. pose proof HM as [MV _]. exists (SI p (map fst order) 0). split; [unfold SIterate; now rewrite MV|].
  assert (G : forall todo done_ g, same h g -> order = done_ ++ todo ->
    if forallb (fun x => keq (fst x) (fst x)) todo
    then exists h', loopS keq hb (S (List.length todo)) g (SI p (map fst order) (List.length done_)) = Some (RDone h' (pv K V h todo)) /\ same h h'
    else exists h', loopS keq hb (S (List.length todo)) g (SI p (map fst order) (List.length done_)) = Some (RPanic h') /\ same h h').
  { induction todo as [|[k s] r IH]; intros done_ g SG EO.
    - exists g. split; [|exact SG]. cbn [List.length loopS]. unfold SHasNext. cbn [s_i s_keys]. rewrite EO, app_nil_r, map_length, Nat.eqb_refl. reflexivity.
    - assert (HN : SHasNext (SI p (map fst order) (List.length done_)) = true).
      { unfold SHasNext. cbn [s_i s_keys]. rewrite EO, map_length, app_length. cbn [List.length]. rewrite (proj2 (Nat.eqb_neq _ _)) by lia. reflexivity. }
      assert (NK : nth_error (map fst order) (List.length done_) = Some k).
      { rewrite EO, map_app, nth_error_app2; rewrite map_length; [|lia]. now rewrite Nat.sub_diag. }
      assert (MI : mapIndex K V keq hb g (mvars g p) k = RDone g (if keq k k then Some (vars h s) else None)).
      { assert (IL : In (k, s) l) by (apply (Permutation_in _ P); rewrite EO; apply in_app_iff; right; now left).
        pose proof (proj1 (hashes_can K hb k) (KH b l k s E IL)) as CH.
        destruct SG as (SM & SH & SN & SV). rewrite SM, MV. unfold mapIndex, pairsOf. rewrite CH, SH, E, findSlot_value. cbn [negb]. f_equal.
        destruct (same_ok K V keq h g OK (conj SM (conj SH (conj SN SV)))) as [_ CE]. specialize (CE b). unfold contents in CE. rewrite SH, E in CE.
        change (pv K V g l = pv K V h l) in CE. rewrite CE. apply own_value; [exact KEQ|apply (proj1 OK b l E)|exact IL]. }
      change (S (List.length ((k, s) :: r))) with (S (S (List.length r))).
      cbn [forallb fst]. set (F := S (List.length r)) in *. cbn [loopS]. rewrite HN. unfold SNext. cbn [s_keys s_i s_map]. rewrite NK, MI.
      destruct (keq k k); cbn [andb]; [|exists g; auto].
      destruct (newVar g (vars h s)) as [g' n] eqn:NV. destruct (new_same K V g _ g' n NV) as ((M' & H' & N' & V') & -> & VE).
      assert (SG' : same h g').
      { destruct SG as (M & H & N & VV). split; [now rewrite M'|]. split; [now rewrite H'|]. split; [lia|]. intros x L. rewrite V' by lia. auto. }
      assert (EO' : order = (done_ ++ [(k, s)]) ++ r) by now rewrite <- app_assoc.
      specialize (IH (done_ ++ [(k, s)]) g' SG' EO'). rewrite app_length in IH. cbn [List.length] in IH. replace (List.length done_ + 1)%nat with (S (List.length done_)) in IH by lia.
      fold F in IH. destruct (forallb _ r).
      + destruct IH as (h' & L & SS). exists h'. rewrite L. split; [|exact SS]. rewrite VE. reflexivity.
      + destruct IH as (h' & L & SS). exists h'. rewrite L. auto. }
  specialize (G order [] h (conj eq_refl (conj eq_refl (conj (le_n _) (fun _ _ => eq_refl)))) eq_refl). rewrite <- (Permutation_length P).
  assert (FE : forallb (fun x => keq (fst x) (fst x)) l = forallb (fun x => keq (fst x) (fst x)) order).
  { clear -P. induction P as [|x a c P IH|x y a|a c d P1 IH1 P2 IH2]; cbn; [reflexivity|now rewrite IH| |congruence]. 
    destruct (keq (fst x) (fst x)), (keq (fst y) (fst y)); reflexivity. }
  rewrite FE. destruct (forallb _ order).
  - destruct G as (h' & L & SS). exists h', (pv K V h order). split; [exact L|]. split; [|exact SS]. unfold contents. rewrite E. now apply Permutation_map.
  - exact G.
Qed.
Print Assumptions C78_safe_partial.

Definition C78_full : Prop := forall K V keq hb (h : mheap K V) p b l order, key_equality keq -> heap_ok keq h -> keys_hash hb h -> holds_map h p b -> hdrs h b = Some l -> Permutation order l ->
  exists it h' pairs, SIterate order h (OMapPtr (Some p)) = RDone h it /\ loopS keq hb (S (List.length l)) h it = Some (RDone h' pairs) /\ Permutation pairs (contents h b).
(** m := map[float64]int{NaN: 10} *)
Definition x_nan : mheap nat nat := MH (fun x => match x with 2 => 10 | _ => 0 end%nat) (fun b => if Nat.eqb b 0 then Some [(7, 2)]%nat else None)
    (fun p => if Nat.eqb p 1 then Some 0%nat else None) 3.
Lemma x_nan_ok : heap_ok x_eq x_nan /\ holds_map x_nan 1 0.
Proof.
  assert (SL : forall b s, slots x_nan b s -> b = 0%nat /\ (s = 2)%nat).
  { intros b s (l & E & I). cbn in E. destruct (Nat.eqb_spec b 0); [|discriminate]. injection E as <-. cbn in I. intuition. }
  split; [split; [|split]|].
  - intros b l E. cbn in E. destruct (Nat.eqb_spec b 0); [|discriminate]. injection E as <-. subst. cbn. split; [|split; [|lia]].
    + repeat constructor; cbn; intuition discriminate.
    + repeat constructor.
  - intros b s I. apply SL in I. cbn. lia.
  - intros b b' s I I'. apply SL in I. apply SL in I'. lia.
  - split; [reflexivity|discriminate].
Qed.
Theorem C78_nan_refuted : loopS x_eq None 2 x_nan (SI 1%nat [7%nat] 0) = Some (RPanic x_nan) /\ loopU 2 x_nan (Some [(7, 2)]%nat) = Some (RDone x_nan [(7, 10)]%nat).
Proof. split; reflexivity. Qed.
Print Assumptions C78_nan_refuted.
Theorem C78_full_refuted : ~ C78_full.
Proof.
  intros F. destruct x_nan_ok as [OK HM]. destruct (F _ _ x_eq None x_nan 1%nat 0%nat [(7, 2)]%nat [(7, 2)]%nat x_key OK (fun _ _ _ _ _ _ => Logic.I) HM eq_refl (Permutation_refl _)) as (it & h' & pairs & E & L & _).
  injection E as <-. discriminate (eq_trans (eq_sym (proj1 C78_nan_refuted)) L).
Qed.
Print Assumptions C78_full_refuted.
(** The safe iterator, whatever happened to the map since it was made: the next key is that of its own list, with the element the map has for it now,
    in a new variable; if it has none, the iterator panics.  Keys added meanwhile never come *)
Theorem C78_safe_now : forall K V keq hb (h : mheap K V) p b it k, can_hash hb k -> holds_map h p b -> s_map it = p -> nth_error (s_keys it) (s_i it) = Some k ->
  SHasNext it = true /\
  match value_of keq (contents h b) k with
  | Some v => exists h' n it', SNext K V keq hb h it = RDone h' (OKeyPtr (Some k), OElemPtr (Some n), it') /\ same h h' /\ (nxt h <= n)%nat /\ vars h' n = v /\
      s_map it' = p /\ s_keys it' = s_keys it /\ s_i it' = S (s_i it)
  | None => SNext K V keq hb h it = RPanic h
  end.
Proof.
  intros K V keq hb h p b it k CH [MV HD] SM NK. apply (proj1 (hashes_can K hb _)) in CH. split.
  - unfold SHasNext. assert (s_i it < List.length (s_keys it))%nat by (apply nth_error_Some; congruence). rewrite (proj2 (Nat.eqb_neq _ _)) by lia. reflexivity.
  - unfold SNext, mapIndex. rewrite NK, CH, SM, MV, findSlot_value. cbn [negb]. unfold contents, pairsOf. fold (pv K V h (match hdrs h b with Some l => l | None => [] end)).
    destruct (value_of _ _ k) as [v|]; [|reflexivity].
    destruct (newVar h v) as [h' n] eqn:E. destruct (new_same K V h v h' n E) as (S' & -> & VE).
    exists h', (nxt h), (SI p (s_keys it) (S (s_i it))). split; [reflexivity|]. split; [exact S'|]. split; [lia|]. split; [exact VE|]. repeat split.
Qed.
Print Assumptions C78_safe_now.
(** The keys were taken when m was {1: 10, 2: 20}; since then m[2] = 30 *)
Example C78_safe_now_example : exists h' it', SNext nat nat x_eq None (writeVar x_heap 3 30%nat) (SI 1%nat [1; 2]%nat 1) = RDone h' (OKeyPtr (Some 2%nat), OElemPtr (Some 6%nat), it') /\
  vars h' 6 = 30%nat /\ SHasNext it' = false.
Proof. do 2 eexists. split; [reflexivity|]. split; reflexivity. Qed.
(** Deleting a key that is yet to come makes the safe iterator panic *)
Theorem C78_delete_refuted : forall K V keq hb zeroV keyUpdate evacuated moves (h h' : mheap K V) p b k it,
  key_equality keq -> heap_ok keq h -> holds_map h p b -> s_map it = p -> nth_error (s_keys it) (s_i it) = Some k ->
  SSetIndex K V keq hb zeroV keyUpdate evacuated moves h (OMapPtr (Some p)) (OKeyPtr (Some k)) (OElemPtr None) = RDone h' tt -> keq k k = true ->
  SHasNext it = true /\ SNext K V keq hb h' it = RPanic h'.
Proof.
  intros K V keq hb zeroV ku ev moves h h' p b k it KEQ OK [MV HD] SM NK E KK. split.
  - unfold SHasNext. assert (s_i it < List.length (s_keys it))%nat by (apply nth_error_Some; congruence). rewrite (proj2 (Nat.eqb_neq _ _)) by lia. reflexivity.
  - unfold SSetIndex in E. rewrite MV in E. assert (CH : can_hash hb k).
    { destruct (hashes K hb (Some k)) eqn:X; [exact (proj2 (hashes_can K hb _) X)|]. unfold mapdelete in E. rewrite X in E. discriminate. }
    destruct (delete_ok K V keq hb ev KEQ moves h b k CH OK HD) as (h'' & E' & _ & _ & C & O). rewrite E' in E. injection E as <-.
    unfold SNext. rewrite NK, SM. destruct O as (MS & _). rewrite MS, MV. unfold mapIndex. rewrite (proj1 (hashes_can K hb k) CH), findSlot_value. cbn [negb].
    specialize (C k). rewrite KK in C. unfold contents in C. unfold pairsOf, pv. rewrite C. reflexivity.
Qed.
Print Assumptions C78_delete_refuted.
Example C78_delete_example : exists h', SSetIndex nat nat x_eq None 0%nat true x_zero none x_heap (OMapPtr (Some 1%nat)) (OKeyPtr (Some 2%nat)) (OElemPtr None) = RDone h' tt /\
  SNext nat nat x_eq None h' (SI 1%nat [1; 2]%nat 1) = RPanic h'.
Proof. eexists. split; reflexivity. Qed.

(** * C79: writing through the pointer that GetIndex gives *)

(** It changes the element of that key in the map (unsafe), or no map at all (safe) *)
Theorem C79_write : forall K V keq hb (h : mheap K V) p b k x v, key_equality keq -> heap_ok keq h -> holds_map h p b ->
  UGetIndex K V keq hb h (OMapPtr (Some p)) (OKeyPtr (Some k)) = RDone h (OElemPtr (Some x)) ->
  forall k', value_of keq (contents (writeVar h x v) b) k' = if keq k' k then Some v else value_of keq (contents h b) k'.
Proof.
  intros K V keq hb h p b k x v KEQ OK [MV HD] E. apply write_slot; auto. unfold UGetIndex, mapaccess in E. rewrite MV in E. destruct (negb _); [discriminate|]. destruct (pairsOf h b); [discriminate|]. now injection E.
Qed.
Print Assumptions C79_write.
Example C79_write_example : contents (writeVar x_heap 3 99%nat) 0 = [(1, 10); (2, 99)]%nat.
Proof. reflexivity. Qed.
Theorem C79_copy : forall K V keq hb (h h' : mheap K V) p b b' k x v, heap_ok keq h -> holds_map h p b ->
  SGetIndex K V keq hb h (OMapPtr (Some p)) (OKeyPtr (Some k)) = RDone h' (OElemPtr (Some x)) -> contents (writeVar h' x v) b' = contents h b'.
Proof.
  intros K V keq hb h h' p b b' k x v OK HM E. assert (CH : can_hash hb k).
  { destruct (hashes K hb (Some k)) eqn:X; [exact (proj2 (hashes_can K hb _) X)|]. unfold SGetIndex, mapIndex in E. rewrite X in E. discriminate. }
  destruct (C77_get K V keq hb h p b k CH OK HM) as [_ (h'' & q & E' & S' & _ & Q)]. rewrite E in E'. injection E' as <- <-.
  specialize (Q x eq_refl). destruct (same_ok K V keq h h' OK S') as [_ CE]. rewrite <- CE. apply write_other. intros SX. destruct S' as (_ & HS & _).
  unfold slots in SX. rewrite HS in SX. destruct OK as (_ & O2 & _). pose proof (O2 b' x SX). lia.
Qed.
Print Assumptions C79_copy.
Example C79_copy_example : exists h', SGetIndex nat nat x_eq None x_heap (OMapPtr (Some 1%nat)) (OKeyPtr (Some 2%nat)) = RDone h' (OElemPtr (Some 6%nat)) /\ contents (writeVar h' 6 99%nat) 0 = [(1, 10); (2, 20)]%nat.
Proof. eexists. split; reflexivity. Qed.

(** The unsafe pointer keeps doing so after another SetIndex exactly if the runtime did not move the element *)
Theorem C79_iff_partial : forall K V keq hb zeroV keyUpdate evacuated moves (h h' : mheap K V) p b k x k2 e v, key_equality keq -> heap_ok keq h -> holds_map h p b ->
  UGetIndex K V keq hb h (OMapPtr (Some p)) (OKeyPtr (Some k)) = RDone h (OElemPtr (Some x)) -> (e < nxt h)%nat -> ~ slots h b e ->
  USetIndex K V keq hb zeroV keyUpdate evacuated moves h (OMapPtr (Some p)) (OKeyPtr (Some k2)) (OElemPtr (Some e)) = RDone h' tt ->
  (slots h' b x <-> moves x = false) /\ (moves x = true -> contents (writeVar h' x v) b = contents h' b).
Proof.
  intros K V keq hb zeroV ku ev moves h h' p b k x k2 e v KEQ OK HM G L NS E.
  assert (CH : can_hash hb k).
  { destruct (hashes K hb (Some k)) eqn:X; [exact (proj2 (hashes_can K hb _) X)|]. unfold UGetIndex, mapaccess in G. rewrite X in G. discriminate. }
  destruct (C77_get K V keq hb h p b k CH OK HM) as [(s & E1 & _ & SX & _) _]. rewrite G in E1. injection E1 as <-. specialize (SX x eq_refl).
  unfold USetIndex in E. destruct HM as [MV HD]. rewrite MV in E. pose proof (assign_slots K V keq hb zeroV ku ev moves h b k2 e h' x OK SX E) as A.
  split; [exact A|]. intros M. apply write_other. intros SX'. apply A in SX'. congruence.
Qed.
Print Assumptions C79_iff_partial.
Definition C79_full : Prop := forall K V keq hb zeroV keyUpdate evacuated moves (h h' : mheap K V) p b k x k2 e v, key_equality keq -> heap_ok keq h -> holds_map h p b ->
  UGetIndex K V keq hb h (OMapPtr (Some p)) (OKeyPtr (Some k)) = RDone h (OElemPtr (Some x)) -> (e < nxt h)%nat -> ~ slots h b e ->
  USetIndex K V keq hb zeroV keyUpdate evacuated moves h (OMapPtr (Some p)) (OKeyPtr (Some k2)) (OElemPtr (Some e)) = RDone h' tt ->
  keq k k = true -> value_of keq (contents (writeVar h' x v) b) k = Some v.
Theorem C79_stale_refuted : exists h', USetIndex nat nat x_eq None 0%nat true x_zero (fun s => Nat.eqb s 2) x_heap (OMapPtr (Some 1%nat)) (OKeyPtr (Some 5%nat)) (OElemPtr (Some 4%nat)) = RDone h' tt /\
  contents (writeVar h' 2 99%nat) 0 = [(1, 10); (2, 20); (5, 30)]%nat /\ contents (writeVar h' 3 99%nat) 0 = [(1, 10); (2, 99); (5, 30)]%nat.
Proof. eexists. split; [reflexivity|]. split; reflexivity. Qed.
Print Assumptions C79_stale_refuted.
Theorem C79_full_refuted : ~ C79_full.
Proof.
  intros F. destruct C79_stale_refuted as (h' & E & C & _). destruct x_ok as (OK & HM & NS).
  pose proof (F nat nat x_eq None 0%nat true x_zero (fun s => Nat.eqb s 2) x_heap h' 1%nat 0%nat 1%nat 2%nat 5%nat 4%nat 99%nat x_key OK HM eq_refl ltac:(cbn; lia) NS E eq_refl) as H. rewrite C in H. discriminate.
Qed.
Print Assumptions C79_full_refuted.
