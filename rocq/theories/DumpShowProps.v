From Verif Require Import Base DecimalSpec JsonIntModel JsonIntProofs JsonIntProps JsonStrModel JsonStrProps JsonSpec JsonCompProofs DumpModel DumpSpec DumpProofs DumpProofs2 DumpProps DumpShowSpec DumpShowProofs.
From Coq Require Import Permutation.
Open Scope Z_scope.
Open Scope list_scope.

(** ** C122: what a dump shows of a value *)
(** Whatever the type, what its encoder writes, and the entries it adds, are what the memory at the address is as a value of that type *)
Theorem C122_values : forall byteAt box types sizeOf leaf leafShown depth overflows,
  (forall p b, byteAt p = Some b -> 0 <= b < 256 /\ 0 <= p < 2 ^ 64) ->
  (forall m space p, 0 <= p < 2 ^ 47 -> stored byteAt (box m space p) (leBytes 8 p)) -> (forall t, oneWord types t -> likePtr types depth t = true) ->
  (forall t, types t = TLeaf -> shows_as (leaf t) (leafShown t)) ->
  (forall t fs, types t = TStruct fs -> forall name offset u, In (name, offset, u) fs -> Forall (fun b => ~ must_escape b) name) ->
  (forall t k u, types t = TMap k u -> fewEvacuated byteAt) ->
  forall fuel t e, EncoderOf byteAt box types sizeOf leaf depth overflows fuel t = Some e -> shows_as e (behind byteAt types (shown byteAt types sizeOf leafShown fuel) t).
Proof.
  intros byteAt box types sizeOf leaf leafShown depth overflows B Bx D L N M fuel t e E. eapply (Encoder_shows byteAt); [intros p b H; apply (B p b H)| |exact Bx|exact D|exact L|exact N|exact M|exact E].
  intros p H. destruct (byteAt p) as [b|] eqn:Bp; [|congruence]. specialize (B _ _ Bp). lia.
Qed.

(** The document has as members the root and, under their addresses, the root's value and all entries; of two entries for one address the later one *)
Theorem C122_document : forall byteAt box types sizeOf leaf leafShown depth overflows typeAt typeString order root fuel out,
  (forall p b, byteAt p = Some b -> 0 <= b < 256 /\ 0 <= p < 2 ^ 64) ->
  (forall m space p, 0 <= p < 2 ^ 47 -> stored byteAt (box m space p) (leBytes 8 p)) -> (forall t, oneWord types t -> likePtr types depth t = true) ->
  (forall t, types t = TLeaf -> shows_as (leaf t) (leafShown t)) ->
  (forall t fs, types t = TStruct fs -> forall name offset u, In (name, offset, u) fs -> Forall (fun b => ~ must_escape b) name) ->
  (forall t k u, types t = TMap k u -> fewEvacuated byteAt) ->
  (forall p s, typeString p = Some s -> Forall (fun b => ~ must_escape b) s) -> (forall l, Permutation (order l) l) ->
  VarString byteAt typeString (dumperAt byteAt box types sizeOf leaf depth overflows typeAt fuel) order root = Some out ->
  exists ms dt data name s j a, parses out (JObj ms) /\ NoDup (map fst ms) /\ unsignedAt byteAt 8 root dt /\ typeString dt = Some name /\ unsignedAt byteAt 8 (root + 8) data /\ addressIs s data /\
    behind byteAt types (shown byteAt types sizeOf leafShown fuel) (typeAt dt) data j a /\
    forall k v, In (k, v) ms <-> memberOf k ((bs "__root__", JObj [(bs "type", JStr name); (bs "data", ptrJson s)]) :: (s, j) :: a) = Some v.
Proof.
  intros byteAt box types sizeOf leaf leafShown depth overflows typeAt typeString order root fuel out B Bx D L N M Nm P E.
  apply (document_shows byteAt) with (order := order) (R := fun p => behind byteAt types (shown byteAt types sizeOf leafShown fuel) (typeAt p)) in E; [exact E|intros p b H; apply (B p b H)|exact Nm| |exact P].
  intros p q m space m' o H. unfold dumperAt in H. destruct (EncoderOf byteAt box types sizeOf leaf depth overflows fuel (typeAt p)) as [e|] eqn:Ee; [|discriminate]. cbn [obind] in H.
  eapply (C122_values byteAt box types sizeOf leaf leafShown depth overflows B Bx D L N M); eassumption.
Qed.

(** What is shown of an hmap *)
Theorem C122_map : forall byteAt ke ee keys elems keySize elemSize fuel, (forall p b, byteAt p = Some b -> 0 <= b < 256) -> shows_as ke keys -> shows_as ee elems ->
  fewEvacuated byteAt -> shows_as (mapEncoder byteAt ke ee keySize elemSize fuel) (mapShown byteAt keys elems keySize elemSize).
Proof. intros. apply map_shows; assumption. Qed.

(** If all memory can be read and the type has no map in it, something is written *)
Theorem C122_written : forall byteAt box types sizeOf leaf depth overflows,
  (forall p, 0 <= p -> byteAt p <> None) -> (forall p b, byteAt p = Some b -> 0 <= b < 256) -> (forall m space p, 0 <= box m space p) -> (forall t, 0 <= sizeOf t) ->
  (forall t fs, types t = TStruct fs -> forall name offset u, In (name, offset, u) fs -> 0 <= offset) ->
  (forall t, types t = TLeaf -> forall m space p, 0 <= p -> exists r, leaf t m space p = Some r) -> (forall t k u, types t <> TMap k u) ->
  forall fuel t e, EncoderOf byteAt box types sizeOf leaf depth overflows fuel t = Some e -> forall m space p, 0 <= p -> exists r, e m space p = Some r.
Proof.
  intros byteAt box types sizeOf leaf depth overflows A B Bx Sz O L M fuel t e E. unfold EncoderOf in E. destruct (encoderOf byteAt box types sizeOf leaf depth overflows fuel t) as [e1|] eqn:E1; [|discriminate]. cbn [obind] in E. apply some_eq in E. subst e.
  apply (wrap_there box types depth Bx). eapply encoder_there; [|exact B|exact Bx|exact Sz|exact O|exact L|exact M|exact E1].
  intros p H. specialize (A p H). destruct (byteAt p) as [b|] eqn:Bp; [|congruence]. exists b. split; [reflexivity|apply (B _ _ Bp)].
Qed.

(** ** Examples *)
(** Memory with a place for every pointer below 2^47: at 2^60 + 8 * p *)
Definition places (ws : list (Z * Z)) (p : Z) : option Z :=
  if (2 ^ 60 <=? p) && (p <? 2 ^ 60 + 2 ^ 50) then Some ((p - 2 ^ 60) / 8 / 256 ^ ((p - 2 ^ 60) mod 8) mod 256) else mem ws p.
Definition place (m : amap) (space : bytes) (p : Z) : Z := 2 ^ 60 + 8 * (p mod 2 ^ 47).
Lemma places_range ws p b : places ws p = Some b -> 0 <= b < 256 /\ 0 <= p < 2 ^ 64.
Proof.
  unfold places. destruct ((2 ^ 60 <=? p) && (p <? 2 ^ 60 + 2 ^ 50)) eqn:E.
  - intros H. apply some_eq in H. subst b. split; [apply Z.mod_pos_bound; lia|]. apply andb_true_iff in E. destruct E as [E1 E2]. change (2 ^ 60) with 1152921504606846976 in *. change (2 ^ 50) with 1125899906842624 in *. change (2 ^ 64) with 18446744073709551616. lia.
  - intros H. split; [eapply mem_range; exact H|]. assert (mem ws p <> None) as X by congruence. apply mem_there in X. change (2 ^ 64) with 18446744073709551616. lia.
Qed.
Lemma place_has ws m space p : 0 <= p < 2 ^ 47 -> stored (places ws) (place m space p) (leBytes 8 p).
Proof.
  intros R i b H. unfold place. rewrite Z.mod_small by exact R. unfold leBytes in H. rewrite nth_error_map in H. destruct (nth_error (seq 0 8) i) as [k|] eqn:K; [|discriminate]. cbn [option_map] in H. apply some_eq in H. subst b.
  assert (L : (i < 8)%nat) by (rewrite <- (seq_length 8 0); apply nth_error_Some; congruence). rewrite nth_error_nth' with (d := 0%nat) in K by (rewrite seq_length; exact L). rewrite seq_nth in K by exact L. apply some_eq in K. subst k. cbn [plus].
  unfold places. change (2 ^ 60) with 1152921504606846976. change (2 ^ 50) with 1125899906842624. change (2 ^ 47) with 140737488355328 in R.
  replace (_ && _) with true by lia. replace (1152921504606846976 + 8 * p + Z.of_nat i - 1152921504606846976) with (Z.of_nat i + p * 8) by lia. rewrite Z.div_add, Z.mod_add by lia. rewrite (Z.div_small (Z.of_nat i) 8), (Z.mod_small (Z.of_nat i) 8) by lia. reflexivity.
Qed.
Lemma byteLeaf_shows byteAt : (forall p b, byteAt p = Some b -> 0 <= b < 256) -> shows_as (byteLeaf byteAt) (byteShown byteAt).
Proof.
  intros R p m space m' out E. unfold byteLeaf in E. destruct (byteAt p) as [b|] eqn:B; [|discriminate]. cbn [obind] in E. destruct (WriteUint8 space b) as [s|] eqn:W; [|discriminate]. cbn [obind] in E. apply some_pair in E. destruct E as [<- <-].
  destruct (uint8_num _ _ _ (R _ _ B) W) as (t & -> & N & V). exists t, (JNum t), [], []. split; [reflexivity|]. split; [exact V|]. split; [reflexivity|]. split; [constructor|]. exists b, t. auto.
Qed.
(** struct { a []*[2]uint8; s string } at 104: two pointers at 200, to 208 and 210; "hi" at 216 *)
Definition showTypes (t : nat) : ty := match t with 0 => TStruct [(bs "a", 0%Z, 1%nat); (bs "s", 24%Z, 5%nat)] | 1 => TSlice 2 | 2 => TPtr 3 | 3 => TArray 2 4 | 5 => TString | _ => TLeaf end%nat.
Definition showSize (t : nat) : Z := match t with 0%nat => 40 | 1%nat => 24 | 2%nat => 8 | 3%nat => 2 | 5%nat => 16 | _ => 1 end.
Definition showWords : list (Z * Z) := [(16, 1000); (24, 104); (104, 200); (112, 2); (120, 2); (128, 232); (136, 2); (200, 216); (208, 218); (216, 1 + 256 * (2 + 256 * (3 + 256 * 4))); (232, 26984)].
Example C122_values_ex : (forall p b, places showWords p = Some b -> 0 <= b < 256 /\ 0 <= p < 2 ^ 64) /\ (forall m space p, 0 <= p < 2 ^ 47 -> stored (places showWords) (place m space p) (leBytes 8 p)) /\
  (forall t, oneWord showTypes t -> likePtr showTypes 3 t = true) /\ shows_as (byteLeaf (places showWords)) (byteShown (places showWords)) /\
  (forall t fs, showTypes t = TStruct fs -> forall name offset u, In (name, offset, u) fs -> Forall (fun b => ~ must_escape b) name) /\ (forall t k u, showTypes t <> TMap k u) /\
  match EncoderOf (places showWords) place showTypes showSize (fun _ => byteLeaf (places showWords)) 3 3 6 0 with
  | Some e => e [] [] 104 = Some ([(bs "232", bs """hi"""); (bs "200", bs "[{""__ptr__"":""1152921504606848576""},{""__ptr__"":""1152921504606848640""}]"); (bs "1152921504606848640", bs "[218,0]"); (bs "1152921504606848576", bs "[216,0]")],
      bs "{""a"":{""data"":{""__ptr__"":""200""},""len"":2,""cap"":2},""s"":{""data"":{""__ptr__"":""232""},""len"":2}}")
  | None => False
  end.
Proof.
  split; [apply places_range|]. split; [apply place_has|]. split.
  { intros t W. destruct t as [|[|[|[|[|[|t]]]]]]; inversion W as [? ? T|? ? ? T|? ? ? ? T _|? ? T _]; subst; try discriminate T; reflexivity. }
  split; [apply byteLeaf_shows; intros p b H; apply (places_range _ _ _ H)|]. split.
  { intros t fs T name offset u I. destruct t as [|[|[|[|[|[|t]]]]]]; try discriminate T. injection T as <-. destruct I as [I|[I|[]]]; injection I as <- _ _; apply plain_lit; reflexivity. }
  split; [intros t k u; destruct t as [|[|[|[|[|[|t]]]]]]; discriminate|]. vm_compute. reflexivity.
Qed.
Definition showDump : option bytes :=
  VarString (places showWords) (fun p => if p =? 1000 then Some (bs "main.T") else None)
    (dumperAt (places showWords) place showTypes showSize (fun _ => byteLeaf (places showWords)) 3 3 (fun _ => 0%nat) 6) (fun l => l) 16.
Example C122_document_ex : (forall t, showTypes t = TLeaf -> shows_as (byteLeaf (places showWords)) (byteShown (places showWords))) /\ showDump =
  Some (bs "{""__root__"":{""type"":""main.T"",""data"":{""__ptr__"":""104""}},""104"":{""a"":{""data"":{""__ptr__"":""200""},""len"":2,""cap"":2},""s"":{""data"":{""__ptr__"":""232""},""len"":2}},""232"":""hi"",""200"":[{""__ptr__"":""1152921504606848576""},{""__ptr__"":""1152921504606848640""}],""1152921504606848640"":[218,0],""1152921504606848576"":[216,0]}").
Proof. split; [intros t _; apply byteLeaf_shows; intros p b H; apply (places_range _ _ _ H)|]. vm_compute. reflexivity. Qed.
(** A map[uint8]uint8 at 104: nothing else in memory is as long as an hmap *)
Definition parts (ws : list (Z * Z)) (p : Z) : option Z := if (104 <=? p) && (p <? 152) || (200 <=? p) && (p <? 232) || (304 <=? p) && (p <? 336) then mem ws p else None.
Example C122_map_ex : fewEvacuated (parts mapWords) /\ shows_as (eight mapWords) (arrayShown (byteShown (mem mapWords)) 1 8) /\ exists m',
  mapEncoder (parts mapWords) (eight mapWords) (eight mapWords) 1 1 5 [] [] 104 = Some (m', bs "{""count"":9,""flags"":0,""B"":0,""noverflow"":0,""hash0"":0,""buckets"":{""__ptr__"":""200""},""oldbuckets"":{""__ptr__"":""0""},""nevacuate"":0,""extra"":{""__ptr__"":""0""}}").
Proof.
  split; [|split; [apply array_shows, byteLeaf_shows, mem_range|eexists; vm_compute; reflexivity]]. intros p n R E.
  assert (P : p = 104).
  { assert (In : forall i, 0 <= i < 48 -> (104 <=? p + i) && (p + i <? 152) || (200 <=? p + i) && (p + i <? 232) || (304 <=? p + i) && (p + i <? 336) = true).
    { intros i Hi. specialize (R i Hi). unfold parts in R. destruct ((104 <=? p + i) && (p + i <? 152) || (200 <=? p + i) && (p + i <? 232) || (304 <=? p + i) && (p + i <? 336)); [reflexivity|congruence]. }
    pose proof (In 0 ltac:(lia)) as H0. pose proof (In 16 ltac:(lia)) as H1. pose proof (In 31 ltac:(lia)) as H2. pose proof (In 47 ltac:(lia)) as H3. pose proof (In 32 ltac:(lia)) as H4. lia. }
  subst p. vm_compute in E. apply some_eq in E. lia.
Qed.
Example C122_written_ex : (forall p, 0 <= p -> whole showWords p <> None) /\ (forall p b, whole showWords p = Some b -> 0 <= b < 256) /\ (forall m space p, 0 <= place m space p) /\ (forall t, 0 <= showSize t) /\
  (forall m space p, 0 <= p -> exists r, byteLeaf (whole showWords) m space p = Some r) /\ exists e, EncoderOf (whole showWords) place showTypes showSize (fun _ => byteLeaf (whole showWords)) 3 3 6 0 = Some e.
Proof.
  assert (B : forall p b, whole showWords p = Some b -> 0 <= b < 256) by (intros p b H; unfold whole in H; apply some_eq in H; subst b; apply Z.mod_pos_bound; lia).
  split; [intros p _; discriminate|]. split; [exact B|]. split; [intros m space p; unfold place; pose proof (Z.mod_pos_bound p (2 ^ 47) ltac:(lia)); lia|]. split; [intros t; destruct t as [|[|[|[|[|[|t]]]]]]; discriminate|]. split; [|eexists; reflexivity].
  intros m space p _. unfold byteLeaf. destruct (whole showWords p) as [b|] eqn:E; [|discriminate E]. cbn [obind]. destruct (C01_uint8 space b (B _ _ E)) as (t & -> & _). cbn [obind]. eauto.
Qed.

Print Assumptions C122_values.
Print Assumptions C122_document.
Print Assumptions C122_map.
Print Assumptions C122_written.
