From Verif Require Import Base DecimalSpec JsonIntModel JsonIntProofs JsonIntProps JsonStrModel JsonStrProps JsonSpec JsonCompProofs DumpModel DumpSpec DumpProofs DumpProofs2.
From Coq Require Import Permutation.
Open Scope Z_scope.
Open Scope list_scope.

(** ** Examples are made of words of memory, zero where nothing is said *)
Definition wordOf (ws : list (Z * Z)) (p : Z) : Z := match find (fun w => fst w =? p) ws with Some (_, w) => w | None => 0 end.
Definition mem (ws : list (Z * Z)) (p : Z) : option Z := if (0 <=? p) && (p <=? 18446744073709551615) then Some (wordOf ws (p / 8 * 8) / 256 ^ (p mod 8) mod 256) else None.
Lemma mem_range ws p b : mem ws p = Some b -> 0 <= b < 256.
Proof. unfold mem. destruct ((0 <=? p) && (p <=? 18446744073709551615)); [|discriminate]. intros E. apply some_eq in E. subst b. apply Z.mod_pos_bound. lia. Qed.
Lemma mem_there ws p : mem ws p <> None -> 0 <= p <= 18446744073709551615.
Proof. unfold mem. destruct ((0 <=? p) && (p <=? 18446744073709551615)) eqn:E; [lia|congruence]. Qed.
(** The encoder of a uint8 *)
Definition byteLeaf (byteAt : Z -> option Z) : enc := fun m space p => let? b := byteAt p in let? space := WriteUint8 space b in Some (m, space).
Lemma byteLeaf_good byteAt : (forall p b, byteAt p = Some b -> 0 <= b < 256) -> goodEnc (byteLeaf byteAt).
Proof.
  intros R ptr m space m' out E. unfold byteLeaf in E. destruct (byteAt ptr) as [b|] eqn:B; [|discriminate]. cbn [obind] in E. destruct (WriteUint8 space b) as [s|] eqn:W; [|discriminate]. cbn [obind] in E. apply some_pair in E. destruct E as [<- <-].
  destruct (uint8_out _ _ _ (R _ _ B) W) as (t & -> & V). exists t, (JNum t), []. split; [reflexivity|]. split; [exact V|]. split; [reflexivity|]. split; [apply explained_num|]. intros k x [].
Qed.

(** ** C115: a dump is JSON that explains every address it shows *)
(** Whatever the type, its encoder writes a JSON value, and every address shown in it and in the entries it adds is nil's or has an entry *)
Theorem C115_encoders : forall byteAt box types sizeOf leaf depth overflows,
  (forall p b, byteAt p = Some b -> 0 <= b < 256 /\ 0 <= p < 2 ^ 64) ->
  (forall t, types t = TLeaf -> goodEnc (leaf t)) ->
  (forall t fs, types t = TStruct fs -> forall name offset u, In (name, offset, u) fs -> Forall (fun b => ~ must_escape b) name /\ name <> bs "__ptr__") ->
  (forall t k u, types t = TMap k u -> fewEvacuated byteAt) ->
  forall fuel t e, EncoderOf byteAt box types sizeOf leaf depth overflows fuel t = Some e -> goodEnc e.
Proof.
  intros byteAt box types sizeOf leaf depth overflows B L N M fuel t e E. unfold EncoderOf in E. destruct (encoderOf byteAt box types sizeOf leaf depth overflows fuel t) as [e1|] eqn:E1; [|discriminate]. cbn [obind] in E. apply some_eq in E. subst e.
  apply wrap_good. eapply encoderOf_good; [intros p b H; apply (B p b H)| | | | |exact E1]; [|exact L|exact N|exact M].
  intros p H. destruct (byteAt p) as [b|] eqn:Bp; [|congruence]. specialize (B _ _ Bp). lia.
Qed.

(** The document: JSON, no member twice, the root's value under its address, and every address shown is nil's or a member *)
Theorem C115_document : forall byteAt box types sizeOf leaf depth overflows typeAt typeString order root fuel out,
  (forall p b, byteAt p = Some b -> 0 <= b < 256 /\ 0 <= p < 2 ^ 64) ->
  (forall t, types t = TLeaf -> goodEnc (leaf t)) ->
  (forall t fs, types t = TStruct fs -> forall name offset u, In (name, offset, u) fs -> Forall (fun b => ~ must_escape b) name /\ name <> bs "__ptr__") ->
  (forall t k u, types t = TMap k u -> fewEvacuated byteAt) ->
  (forall p s, typeString p = Some s -> Forall (fun b => ~ must_escape b) s) -> (forall l, Permutation (order l) l) ->
  VarString byteAt typeString (dumperAt byteAt box types sizeOf leaf depth overflows typeAt fuel) order root = Some out ->
  exists ms dt data name s text j m1, parses out (JObj ms) /\ NoDup (map fst ms) /\
    ptrAt byteAt root = Some dt /\ typeString dt = Some name /\ ptrAt byteAt (root + 8) = Some data /\ ptrToStr data = Some s /\
    In (bs "__root__", JObj [(bs "type", JStr name); (bs "data", JObj [(bs "__ptr__", JStr s)])]) ms /\
    dumperAt byteAt box types sizeOf leaf depth overflows typeAt fuel dt [] [] data = Some (m1, text) /\ valueText text j /\ In (s, j) ms /\
    forall k v, In (k, v) ms -> forall s', shows v s' -> s' = bs "0" \/ In s' (map fst ms).
Proof.
  intros byteAt box types sizeOf leaf depth overflows typeAt typeString order root fuel out B L N M Nm P E. apply (document byteAt) with (order := order) (root := root); [intros p b H; apply (B p b H)|exact Nm| |exact P|exact E].
  intros p. apply dumperAt_good; [intros q b H; apply (B q b H)| |exact L|exact N|exact M].
  intros q H. destruct (byteAt q) as [b|] eqn:Bq; [|congruence]. specialize (B _ _ Bq). lia.
Qed.
(** A string "hi" in the interface at 16: type at 1000, header at 104, bytes at 200 *)
Definition stringWords : list (Z * Z) := [(16, 1000); (24, 104); (104, 200); (112, 2); (200, 26984)].
Definition stringTypes (t : nat) : ty := TString.
Definition stringDump : option bytes :=
  VarString (mem stringWords) (fun p => if p =? 1000 then Some (bs "string") else None)
    (dumperAt (mem stringWords) (fun _ _ p => p) stringTypes (fun _ => 16) (fun _ => byteLeaf (mem stringWords)) 3 3 (fun _ => 0%nat) 3) (fun l => l) 16.
Example C115_document_ex : (forall p b, mem stringWords p = Some b -> 0 <= b < 256 /\ 0 <= p < 2 ^ 64) /\
  stringDump = Some (bs "{""__root__"":{""type"":""string"",""data"":{""__ptr__"":""104""}},""104"":{""data"":{""__ptr__"":""200""},""len"":2},""200"":""hi""}").
Proof.
  split; [|vm_compute; reflexivity]. intros p b H. split; [eapply mem_range; exact H|]. assert (mem stringWords p <> None) as X by congruence. apply mem_there in X. lia.
Qed.

(** Right after a slice is dumped, the entry for the address of its elements is the array of them *)
Theorem C115_slice : forall byteAt elem size m space ptr m' out data s, ptrAt byteAt ptr = Some data -> data <> 0 -> ptrToStr data = Some s ->
  sliceEncoder byteAt elem size m space ptr = Some (m', out) -> exists m1 text, encodeData byteAt elem size m [] ptr = Some (m1, text) /\ m' = (s, text) :: m1.
Proof.
  intros byteAt elem size m space ptr m' out data s D N S E. unfold sliceEncoder in E. rewrite D in E. cbn [obind] in E. destruct (intAt byteAt (ptr + 8)); [|discriminate]. cbn [obind] in E. destruct (intAt byteAt (ptr + 16)); [|discriminate]. cbn [obind] in E.
  rewrite S in E. cbn [obind] in E. destruct (WriteInt64 ((space ++ bs "{""data"":{""__ptr__"":""") ++ s ++ bs """},""len"":") z) as [s1|]; [|discriminate]. cbn [obind] in E. destruct (WriteInt64 (s1 ++ bs ",""cap"":") z0) as [s2|]; [|discriminate]. cbn [obind] in E.
  destruct (encodeData byteAt elem size m [] ptr) as [[m1 text]|]; [|discriminate]. cbn [obind] in E. apply some_pair in E. destruct E as [<- _]. apply Z.eqb_neq in N. rewrite N. eauto.
Qed.
Definition sliceWords : list (Z * Z) := [(104, 200); (112, 2); (120, 4); (200, 257 * 7)].
Example C115_slice_ex : sliceEncoder (mem sliceWords) (byteLeaf (mem sliceWords)) 1 [] [] 104 = Some ([(bs "200", bs "[7,7]")], bs "{""data"":{""__ptr__"":""200""},""len"":2,""cap"":4}").
Proof. vm_compute. reflexivity. Qed.

(** Full claim: what the pointers of a slice point to is in the document.  It is not: the encoder of an element takes the place of the pointer for what it points to *)
Definition C115_full : Prop := forall byteAt box types sizeOf leaf depth overflows typeAt typeString order root fuel out ms dt t u v hdr data len i p m1 text j,
  (forall p b, byteAt p = Some b -> 0 <= b < 256 /\ 0 <= p < 2 ^ 64) -> (forall t, types t = TLeaf -> goodEnc (leaf t)) ->
  (forall l, Permutation (order l) l) -> (exists name, typeString dt = Some name) ->
  VarString byteAt typeString (dumperAt byteAt box types sizeOf leaf depth overflows typeAt fuel) order root = Some out -> parses out (JObj ms) ->
  ptrAt byteAt root = Some dt -> typeAt dt = t -> types t = TSlice u -> types u = TPtr v -> types v = TLeaf -> (0 < depth)%nat -> sizeOf u = 8 ->
  ptrAt byteAt (root + 8) = Some hdr -> ptrAt byteAt hdr = Some data -> intAt byteAt (hdr + 8) = Some len -> 0 <= i < len -> (forall m s k, 0 <= k < len -> ptrAt byteAt (box m s (data + 8 * k)) = Some (data + 8 * k)) -> ptrAt byteAt (data + 8 * i) = Some p ->
  leaf v [] [] p = Some (m1, text) -> valueText text j -> In j (map snd ms).
(** []*uint8 with one element: the slice's header is at 104, its element at 200, what it points to, a 5, at 304; the variable ptr is at 600 *)
Definition ptrWords : list (Z * Z) := [(16, 1000); (24, 104); (104, 200); (112, 1); (120, 1); (200, 304); (304, 5); (600, 200)].
Definition ptrTypes (t : nat) : ty := match t with 0 => TSlice 1 | 1 => TPtr 2 | _ => TLeaf end%nat.
Definition ptrDump : option bytes :=
  VarString (mem ptrWords) (fun p => if p =? 1000 then Some (bs "[]*uint8") else None)
    (dumperAt (mem ptrWords) (fun _ _ p => if p =? 200 then 600 else 0) ptrTypes (fun _ => 8) (fun _ => byteLeaf (mem ptrWords)) 3 3 (fun _ => 0%nat) 5) (fun l => l) 16.
Theorem C115_pointee_refuted : ptrDump = Some (bs "{""__root__"":{""type"":""[]*uint8"",""data"":{""__ptr__"":""104""}},""104"":{""data"":{""__ptr__"":""200""},""len"":1,""cap"":1},""200"":[{""__ptr__"":""600""}],""600"":48}") /\
  ptrAt (mem ptrWords) 200 = Some 304 /\ byteLeaf (mem ptrWords) [] [] 304 = Some ([], bs "5").
Proof. split; [vm_compute; reflexivity|]. split; vm_compute; reflexivity. Qed.
Theorem C115_full_refuted : ~ C115_full.
Proof.
  intros F. specialize (F (mem ptrWords) (fun _ _ p => if p =? 200 then 600 else 0) ptrTypes (fun _ => 8) (fun _ => byteLeaf (mem ptrWords)) 3%nat 3%nat (fun _ => 0%nat) (fun p => if p =? 1000 then Some (bs "[]*uint8") else None) (fun l => l) 16 5%nat).
  pose (ms := [(bs "__root__", JObj [(bs "type", JStr (bs "[]*uint8")); (bs "data", JObj [(bs "__ptr__", JStr (bs "104"))])]); (bs "104", JObj [(bs "data", JObj [(bs "__ptr__", JStr (bs "200"))]); (bs "len", JNum (bs "1")); (bs "cap", JNum (bs "1"))]);
    (bs "200", JArr [JObj [(bs "__ptr__", JStr (bs "600"))]]); (bs "600", JNum (bs "48"))]).
  assert (X : In (JNum (bs "5")) (map snd ms)).
  { eapply (F _ ms 1000 0%nat 1%nat 2%nat 104 200 1 0 304 [] (bs "5")).
    - intros p b H. split; [eapply mem_range; exact H|]. assert (mem ptrWords p <> None) as X by congruence. apply mem_there in X. lia.
    - intros t _. apply byteLeaf_good. apply mem_range.
    - apply Permutation_refl.
    - eexists. reflexivity.
    - exact (proj1 C115_pointee_refuted).
    - exists 50%nat, []. split; [vm_compute; reflexivity|reflexivity].
    - vm_compute. reflexivity.
    - reflexivity.
    - reflexivity.
    - reflexivity.
    - reflexivity.
    - lia.
    - reflexivity.
    - vm_compute. reflexivity.
    - vm_compute. reflexivity.
    - vm_compute. reflexivity.
    - lia.
    - intros m s k K. assert (k = 0) by lia. subst k. vm_compute. reflexivity.
    - vm_compute. reflexivity.
    - vm_compute. reflexivity.
    - apply (num_valueText _ 5). destruct (C01_uint8 [] 5 ltac:(lia)) as (t & E & C). vm_compute in E. apply some_eq in E. change (canon_int [53] 5). rewrite E. exact C. }
  unfold ms in X. cbn [map snd] in X. repeat destruct X as [X|X]; try discriminate X. exact X.
Qed.
(** What the first field of a struct points to is lost: the field has the address of the struct, and there the struct is put afterwards.  The 5 is not in the document *)
Theorem C115_struct_refuted : forall ws, ws = [(16, 1000); (24, 104); (104, 200); (112, 208); (200, 5); (208, 6)] ->
  VarString (mem ws) (fun p => if p =? 1000 then Some (bs "T") else None)
    (dumperAt (mem ws) (fun _ _ p => 0) (fun t => match t with 0 => TStruct [(bs "Field1", 0%Z, 1%nat); (bs "Field2", 8%Z, 1%nat)] | 1 => TPtr 2 | _ => TLeaf end%nat) (fun _ => 8) (fun _ => byteLeaf (mem ws)) 3 3 (fun _ => 0%nat) 5) (fun l => l) 16 =
  Some (bs "{""__root__"":{""type"":""T"",""data"":{""__ptr__"":""104""}},""104"":{""Field1"":{""__ptr__"":""104""},""Field2"":{""__ptr__"":""112""}},""112"":6}").
Proof. intros ws ->. vm_compute. reflexivity. Qed.
(** Equal pointers are shown with different addresses: each with its own *)
Theorem C115_same_refuted : exists byteAt p1 p2, ptrAt byteAt p1 = ptrAt byteAt p2 /\ ptrAt byteAt p1 <> None /\
  pointerEncoder byteAt (byteLeaf byteAt) [] [] p1 = Some ([(bs "104", bs "5")], bs "{""__ptr__"":""104""}") /\ pointerEncoder byteAt (byteLeaf byteAt) [] [] p2 = Some ([(bs "112", bs "5")], bs "{""__ptr__"":""112""}").
Proof. exists (mem [(104, 200); (112, 200); (200, 5)]), 104, 112. split; [vm_compute; reflexivity|]. split; [vm_compute; discriminate|]. split; vm_compute; reflexivity. Qed.
(** nil cannot be dumped: there is no type at address 0 *)
Theorem C115_nil_refuted : forall byteAt typeString dumperOf order root, ptrAt byteAt root = Some 0 -> typeString 0 = None -> VarString byteAt typeString dumperOf order root = None.
Proof. intros byteAt typeString dumperOf order root R T. unfold VarString, efaceEncoder. rewrite R. cbn [obind]. destruct (ptrAt byteAt (root + 8)); [|reflexivity]. cbn [obind]. rewrite T. reflexivity. Qed.
Example C115_nil_ex : ptrAt (mem []) 16 = Some 0. Proof. vm_compute. reflexivity. Qed.
(** A type whose name has a quote (a struct tag) makes a text that is no JSON *)
Theorem C115_quote_refuted : exists out, VarString (mem stringWords) (fun _ => Some (bs "struct { A int ""json:\""a\"""" }")) (fun _ => byteLeaf (mem stringWords)) (fun l => l) 16 = Some out /\
  forall n, value n out = None.
Proof.
  eexists. split; [vm_compute; reflexivity|]. intros n. do 12 (destruct n as [|n]; [reflexivity|]). reflexivity.
Qed.
Definition nestTypes (t : nat) : ty := match t with 0 => TStruct [(bs "a", 0%Z, 1%nat); (bs "b", 24%Z, 3%nat); (bs "c", 32%Z, 2%nat)] | 1 => TSlice 2 | 2 => TArray 2 4 | 3 => TPtr 2 | _ => TLeaf end%nat.
Definition nestWords : list (Z * Z) := [(104, 200); (112, 2); (120, 2); (128, 208); (136, 256 * 9 + 8); (200, 1 + 256 * (2 + 256 * (3 + 256 * 4))); (208, 5 + 256 * 6)].
Example C115_encoders_ex : (forall t, nestTypes t = TLeaf -> goodEnc (byteLeaf (mem nestWords))) /\ match EncoderOf (mem nestWords) (fun _ _ _ => 0) nestTypes (fun t => match t with 2%nat => 2 | _ => 1 end) (fun _ => byteLeaf (mem nestWords)) 3 3 5 0 with
  | Some e => e [] [] 104 = Some ([(bs "128", bs "[5,6]"); (bs "200", bs "[[1,2],[3,4]]")], bs "{""a"":{""data"":{""__ptr__"":""200""},""len"":2,""cap"":2},""b"":{""__ptr__"":""128""},""c"":[8,9]}")
  | None => False
  end.
Proof. split; [intros t _; apply byteLeaf_good, mem_range|]. vm_compute. reflexivity. Qed.

(** ** C116: how a map's buckets are dumped *)
(** The buckets, old buckets and so on lie where Go puts them: a bucket is tophash, keys, elements and the overflow pointer, if keys and elements are kept in it.  (Sizes are multiples of the
    alignments, which divide 8.) *)
Theorem C116_layout : forall keySize keyAlign elemSize elemAlign, 0 <= keySize -> 0 <= elemSize -> In keyAlign [1; 2; 4; 8] -> In elemAlign [1; 2; 4; 8] ->
  fieldOffsets 0 (goBucket keySize keyAlign elemSize elemAlign) = ([0; 8; 8 + 8 * keySize; 8 + 8 * keySize + 8 * elemSize], bucketSize keySize elemSize).
Proof.
  intros ks ka es ea Hk He Ka Ea. unfold goBucket, fieldOffsets, bucketSize, keysSize.
  assert (A : forall a x, In a [1; 2; 4; 8] -> (8 * x + a - 1) / a * a = 8 * x).
  { intros a x [<-|[<-|[<-|[<-|[]]]]].
    - rewrite Z.div_1_r. lia.
    - replace (8 * x + 2 - 1) with (1 + (4 * x) * 2) by lia. rewrite Z.div_add by lia. change (1 / 2) with 0. lia.
    - replace (8 * x + 4 - 1) with (3 + (2 * x) * 4) by lia. rewrite Z.div_add by lia. change (3 / 4) with 0. lia.
    - replace (8 * x + 8 - 1) with (7 + x * 8) by lia. rewrite Z.div_add by lia. change (7 / 8) with 0. lia. }
  replace ((0 + 1 - 1) / 1 * 1) with 0 by reflexivity. pose proof (A ka 1 Ka) as A1. replace (0 + 8) with (8 * 1) by lia. rewrite A1. pose proof (A ea (1 + ks) Ea) as A2. replace (8 * 1 + 8 * ks) with (8 * (1 + ks)) by lia. rewrite A2.
  pose proof (A 8 (1 + ks + es) ltac:(cbn; auto)) as A3. replace (8 * (1 + ks) + 8 * es) with (8 * (1 + ks + es)) by lia. rewrite A3. f_equal; [|lia].
  replace (8 * (1 + ks)) with (8 + 8 * ks) by lia. replace (8 * (1 + ks + es)) with (8 + 8 * ks + 8 * es) by lia. reflexivity.
Qed.
Example C116_layout_ex : fieldOffsets 0 (goBucket 3 1 16 8) = ([0; 8; 32; 160], 168). Proof. vm_compute. reflexivity. Qed.
(** A bucket's text takes them from there *)
Theorem C116_bucket : forall byteAt ke ee keySize keyAlign elemSize elemAlign fuel m space p m' out o1 o2 o3 o4 size, 0 <= keySize -> 0 <= elemSize -> In keyAlign [1; 2; 4; 8] -> In elemAlign [1; 2; 4; 8] ->
  fieldOffsets 0 (goBucket keySize keyAlign elemSize elemAlign) = ([o1; o2; o3; o4], size) ->
  encodeBucket byteAt ke ee keySize elemSize fuel m space p = Some (m', out) ->
  exists s1 m1 s2 m2 s3 q s, tophashLoop byteAt 8 true (space ++ bs "{""tophash"":[") (p + o1) = Some s1 /\ ke m (s1 ++ bs "],""keys"":") (p + o2) = Some (m1, s2) /\
    ee m1 (s2 ++ bs ",""elems"":") (p + o3) = Some (m2, s3) /\ ptrAt byteAt (p + o4) = Some q /\ ptrToStr q = Some s /\ out = s3 ++ bs ",""overflow"":{""__ptr__"":""" ++ s ++ bs """}}".
Proof.
  intros byteAt ke ee ks ka es ea fuel m space p m' out o1 o2 o3 o4 size Hk He Ka Ea O E. rewrite (C116_layout ks ka es ea Hk He Ka Ea) in O. assert (O1 : o1 = 0) by congruence. assert (O2 : o2 = 8) by congruence. assert (O3 : o3 = 8 + 8 * ks) by congruence. assert (O4 : o4 = 8 + 8 * ks + 8 * es) by congruence.
  rewrite O1, O2, O3, O4. clear O O1 O2 O3 O4.
  destruct (bucket_fields _ _ _ _ _ _ _ _ _ _ _ E) as (s1 & m1 & s2 & m2 & s3 & q & s & H1 & H2 & H3 & H4 & H5 & H6). exists s1, m1, s2, m2, s3, q, s. rewrite Z.add_0_r. split; [exact H1|]. split; [exact H2|].
  split; [replace (p + (8 + 8 * ks)) with (p + 8 + 8 * ks) by lia; exact H3|]. split; [exact H4|]. split; assumption.
Qed.
(** map[uint8]uint8 with one bucket at 200 and an overflow bucket at 304 *)
Definition mapWords : list (Z * Z) := [(104, 9); (112, 0); (120, 200); (200, 7); (208, 1); (216, 2); (224, 304); (304, 8); (312, 3); (320, 4)].
Definition eight (ws : list (Z * Z)) : enc := arrayEncoder (byteLeaf (mem ws)) 1 8.
Example C116_bucket_ex : encodeBucket (mem mapWords) (eight mapWords) (eight mapWords) 1 1 5 [] [] 200 =
  Some ([(bs "304", bs "{""tophash"":[8,0,0,0,0,0,0,0],""keys"":[3,0,0,0,0,0,0,0],""elems"":[4,0,0,0,0,0,0,0],""overflow"":{""__ptr__"":""0""}}")],
    bs "{""tophash"":[7,0,0,0,0,0,0,0],""keys"":[1,0,0,0,0,0,0,0],""elems"":[2,0,0,0,0,0,0,0],""overflow"":{""__ptr__"":""304""}}").
Proof. vm_compute. reflexivity. Qed.
(** [count] buckets are dumped, each from its place in the array *)
Theorem C116_buckets : forall byteAt ke ee keySize elemSize fuel count m space ptr m' out, (forall p b, byteAt p = Some b -> 0 <= b < 256) -> goodEnc ke -> goodEnc ee ->
  encodeBuckets byteAt ke ee keySize elemSize fuel count m space ptr = Some (m', out) ->
  exists ts : list bytes, out = space ++ [91] ++ sep true (match ts with [] => [] | t :: l => t :: map (cons 32) l end) ++ [93] /\ Z.of_nat (List.length ts) = Z.max 0 count /\
    forall i t, nth_error ts i = Some t -> exists mi si mi', encodeBucket byteAt ke ee keySize elemSize fuel mi si (ptr + Z.of_nat i * bucketSize keySize elemSize) = Some (mi', si ++ t).
Proof.
  intros byteAt ke ee ks es fuel count m space ptr m' out R K E H. unfold encodeBuckets in H. destruct (bucketsLoop byteAt ke ee ks es fuel (Z.to_nat count) true m (space ++ bs "[") ptr) as [[m1 o1]|] eqn:B; [|discriminate]. cbn [obind] in H. apply some_pair in H. destruct H as [<- <-].
  eapply buckets_at in B; [|intros ? ? ? ? ? X; destruct (bucket_good byteAt R ke ee ks es K E _ _ _ _ _ _ X) as (t & _ & _ & -> & _); eauto]. destruct B as (ts & -> & L & T). exists ts. split; [rewrite <- !app_assoc; reflexivity|]. split; [|exact T]. rewrite L. clear. lia.
Qed.
Example C116_buckets_ex : goodEnc (eight mapWords) /\ exists m' out, encodeBuckets (mem mapWords) (eight mapWords) (eight mapWords) 1 1 5 (bucketsCount 2) [] [] 200 = Some (m', out) /\ List.length out = 438%nat.
Proof.
  split; [unfold eight; apply array_good; apply byteLeaf_good; apply mem_range|]. eexists. eexists. split; [vm_compute; reflexivity|vm_compute; reflexivity].
Qed.
(** Following the overflow buckets ends exactly if they do *)
Theorem C116_ends : forall byteAt ke ee keySize elemSize, (forall p, exists b, byteAt p = Some b /\ 0 <= b < 256) -> (forall m s p, exists r, ke m s p = Some r) -> (forall m s p, exists r, ee m s p = Some r) ->
  forall m space p, (exists fuel r, encodeBucket byteAt ke ee keySize elemSize fuel m space p = Some r) <-> exists n, chain (fun p => ptrAt byteAt (p + bucketSize keySize elemSize - 8)) n p.
Proof.
  intros byteAt ke ee ks es B K E m space p. split.
  - intros (fuel & r & H). destruct (proj1 (chain_fuel byteAt B ke ee ks es K E fuel m space p) (ex_intro _ r H)) as (n & _ & C). exists n. exact C.
  - intros (n & C). destruct (proj2 (chain_fuel byteAt B ke ee ks es K E (S n) m space p)) as (r & H); [exists n; split; [lia|exact C]|]. eauto.
Qed.
Definition whole (ws : list (Z * Z)) (p : Z) : option Z := Some (wordOf ws (p / 8 * 8) / 256 ^ (p mod 8) mod 256).
Definition nothing : enc := fun m s _ => Some (m, s ++ bs "[]").
Example C116_ends_ex : (forall p, exists b, whole mapWords p = Some b /\ 0 <= b < 256) /\ chain (fun p => ptrAt (whole mapWords) (p + bucketSize 1 1 - 8)) 1 200.
Proof.
  split; [intros p; eexists; split; [reflexivity|apply Z.mod_pos_bound; lia]|]. eapply chain_more; [vm_compute; reflexivity|discriminate|]. apply chain_end. vm_compute. reflexivity.
Qed.
(** A bucket that is its own overflow bucket (memory written to meanwhile): no end *)
Theorem C116_cycle_refuted : exists byteAt p, forall fuel m space, encodeBucket byteAt nothing nothing 1 1 fuel m space p = None.
Proof.
  exists (whole [(224, 200)]), 200. intros fuel m space. destruct (encodeBucket (whole [(224, 200)]) nothing nothing 1 1 fuel m space 200) as [r|] eqn:E; [|reflexivity]. exfalso.
  assert (N : ptrAt (whole [(224, 200)]) (200 + bucketSize 1 1 - 8) = Some 200) by (vm_compute; reflexivity).
  destruct (proj1 (C116_ends (whole [(224, 200)]) nothing nothing 1 1 ltac:(intros p; eexists; split; [reflexivity|apply Z.mod_pos_bound; lia]) ltac:(intros; eexists; reflexivity) ltac:(intros; eexists; reflexivity) m space 200)) as (n & C); [eauto|].
  revert C. induction n as [|n IH]; intros C; inversion C as [? X|? ? q X Q Y]; subst; [congruence|]. rewrite N in X. injection X as <-. exact (IH Y).
Qed.
(** The count that is shown is the word at the address the encoder gets *)
Theorem C116_count : forall byteAt ke ee keySize elemSize fuel m space ptr m' out c, (forall p b, byteAt p = Some b -> 0 <= b < 256) ->
  mapEncoder byteAt ke ee keySize elemSize fuel m space ptr = Some (m', out) -> intAt byteAt ptr = Some c -> exists t rest, out = space ++ bs "{""count"":" ++ t ++ bs ",""flags"":" ++ rest /\ canon_int t c.
Proof. exact map_count. Qed.
Example C116_count_ex : exists m', mapEncoder (mem mapWords) (eight mapWords) (eight mapWords) 1 1 5 [] [] 104 = Some (m', bs "{""count"":9,""flags"":0,""B"":0,""noverflow"":0,""hash0"":0,""buckets"":{""__ptr__"":""200""},""oldbuckets"":{""__ptr__"":""0""},""nevacuate"":0,""extra"":{""__ptr__"":""0""}}") /\ map fst m' = [bs "200"; bs "304"].
Proof. eexists. split; [vm_compute; reflexivity|vm_compute; reflexivity]. Qed.
(** Full claim: the dump of a variable that holds a map shows the map's count.  It does not: no encoder gets the address of the map.  The encoder of a field gets the address of the field, the one
    of the dumped object the address of the variable ptr, and so the map's address is shown as the count *)
Definition C116_full : Prop := forall byteAt box types sizeOf leaf depth overflows fuel t k u e v h c m space m' out, (forall p b, byteAt p = Some b -> 0 <= b < 256) ->
  types t = TMap k u -> encoderOf byteAt box types sizeOf leaf depth overflows fuel t = Some e -> ptrAt byteAt v = Some h -> intAt byteAt h = Some c -> e m space v = Some (m', out) ->
  exists s rest, out = space ++ bs "{""count"":" ++ s ++ bs ",""flags"":" ++ rest /\ canon_int s c.
Definition mapTypes (t : nat) : ty := match t with 0 => TMap 1 1 | _ => TLeaf end%nat.
Theorem C116_count_refuted : exists e m', EncoderOf (mem ((600, 104) :: mapWords)) (fun _ _ p => if p =? 104 then 600 else 0) mapTypes (fun _ => 1) (fun _ => byteLeaf (mem ((600, 104) :: mapWords))) 3 3 3 0 = Some e /\
  intAt (mem ((600, 104) :: mapWords)) 104 = Some 9 /\ e [] [] 104 = Some (m', bs "{""count"":104,""flags"":0,""B"":0,""noverflow"":0,""hash0"":0,""buckets"":{""__ptr__"":""0""},""oldbuckets"":{""__ptr__"":""0""},""nevacuate"":0,""extra"":{""__ptr__"":""0""}}").
Proof. eexists. eexists. split; [reflexivity|]. split; [vm_compute; reflexivity|vm_compute; reflexivity]. Qed.
Theorem C116_full_refuted : ~ C116_full.
Proof.
  intros F. set (ws := (600, 104) :: mapWords). destruct (encoderOf (mem ws) (fun _ _ _ => 0) mapTypes (fun _ => 1) (fun _ => byteLeaf (mem ws)) 3 3 3 0) as [e|] eqn:E; [|discriminate E].
  specialize (F (mem ws) (fun _ _ _ => 0) mapTypes (fun _ => 1) (fun _ => byteLeaf (mem ws)) 3%nat 3%nat 3%nat 0%nat 1%nat 1%nat e 600 104 9 [] []). cbn [encoderOf mapTypes obind] in E. apply some_eq in E. subst e.
  edestruct F as (s & rest & O & C); [apply mem_range|reflexivity|reflexivity|vm_compute; reflexivity|vm_compute; reflexivity|vm_compute; reflexivity|]. 
  destruct (C01_int64 [] 9 ltac:(lia)) as (t & W & Ct). pose proof (C01_text_unique _ _ _ C Ct) as <-. vm_compute in W. apply some_eq in W. subst s. vm_compute in O. discriminate O.
Qed.
(** How many old buckets there are while a map grows: half as many, unless it grows to the same size (flag 8 of Go's hmap).  Then half of them are not dumped *)
Definition oldCount (flags B : Z) : Z := if Z.testbit flags 3 then 2 ^ B else 2 ^ (B - 1).
Theorem C116_old : forall flags B, 0 < B < 63 -> (Z.quot (bucketsCount B) 2 = oldCount flags B <-> Z.testbit flags 3 = false).
Proof.
  intros flags B R. unfold bucketsCount, oldCount. replace (B <? 63) with true by lia. assert (E : 2 ^ B = 2 ^ (B - 1) * 2) by (replace B with (Z.succ (B - 1)) at 1 by lia; rewrite Z.pow_succ_r by lia; lia).
  assert (P : 0 < 2 ^ (B - 1)) by (apply Z.pow_pos_nonneg; lia). rewrite E, Z.quot_mul by lia. destruct (Z.testbit flags 3); split; intros H; try reflexivity; try discriminate; lia.
Qed.
Example C116_old_ex : Z.quot (bucketsCount 3) 2 = 4 /\ oldCount 8 3 = 8. Proof. split; vm_compute; reflexivity. Qed.
(** Keys of more than 128 bytes are kept elsewhere, the bucket has pointers to them: the dump takes the overflow pointer from far behind the bucket *)
Theorem C116_big_keys_refuted : fst (fieldOffsets 0 (goBucket 8 8 8 8)) = [0; 8; 72; 136] /\ bucketSize 200 8 - 8 = 1672.
Proof. split; vm_compute; reflexivity. Qed.

(** ** C117: which types can be dumped *)
(** The encoder of a type can be built exactly if no endless chain of types leads on from it *)
Theorem C117_finite : forall byteAt box types sizeOf leaf depth overflows t, (exists fuel e, EncoderOf byteAt box types sizeOf leaf depth overflows fuel t = Some e) <-> finite types t.
Proof.
  intros byteAt box types sizeOf leaf depth overflows t. unfold EncoderOf. split.
  - intros (fuel & e & H). destruct (encoderOf byteAt box types sizeOf leaf depth overflows fuel t) as [e1|] eqn:E; [|discriminate]. eapply built_only. exact E.
  - intros F. destruct (built_when byteAt box types sizeOf leaf depth overflows t F) as (fuel & e & H). exists fuel. rewrite H. cbn [obind]. eauto.
Qed.
Example C117_finite_ex : finite nestTypes 0.
Proof.
  assert (F4 : finite nestTypes 4) by (constructor; intros u []). assert (F2 : finite nestTypes 2) by (constructor; intros u U; cbn in U; subst u; exact F4).
  assert (F1 : finite nestTypes 1) by (constructor; intros u U; cbn in U; subst u; exact F2). assert (F3 : finite nestTypes 3) by (constructor; intros u U; cbn in U; subst u; exact F2).
  constructor. intros u (name & offset & _ & I). cbn in I. destruct I as [I|[I|[I|[]]]]; injection I as _ _ <-; assumption.
Qed.
(** Full claim: every type can be dumped.  A list cannot: type Node struct { next *Node } *)
Definition C117_full : Prop := forall byteAt box types sizeOf leaf depth overflows t, exists fuel e, EncoderOf byteAt box types sizeOf leaf depth overflows fuel t = Some e.
Definition nodeTypes (t : nat) : ty := match t with 0 => TStruct [(bs "next", 0%Z, 1%nat)] | 1 => TPtr 0 | _ => TLeaf end%nat.
Lemma node_endless : ~ finite nodeTypes 0.
Proof.
  assert (G : forall t, finite nodeTypes t -> t = 0%nat \/ t = 1%nat -> False). { induction 1 as [t U IH]. intros [-> | ->].
    - apply (IH 1%nat); [exists (bs "next"), 0; split; [discriminate|left; reflexivity]|right; reflexivity].
    - apply (IH 0%nat); [reflexivity|left; reflexivity]. }
  intros F. apply (G _ F). left. reflexivity.
Qed.
Theorem C117_list_refuted : forall byteAt box sizeOf leaf depth overflows fuel, EncoderOf byteAt box nodeTypes sizeOf leaf depth overflows fuel 0 = None.
Proof.
  intros byteAt box sizeOf leaf depth overflows fuel. destruct (EncoderOf byteAt box nodeTypes sizeOf leaf depth overflows fuel 0) as [e|] eqn:E; [|reflexivity]. destruct node_endless. apply (C117_finite byteAt box nodeTypes sizeOf leaf depth overflows). eauto.
Qed.
Theorem C117_full_refuted : ~ C117_full.
Proof. intros F. destruct (F (fun _ => None) (fun _ _ _ => 0) nodeTypes (fun _ => 8) (fun _ => nothing) 0%nat 0%nat 0%nat) as (fuel & e & E). rewrite C117_list_refuted in E. discriminate. Qed.

Print Assumptions C115_encoders.
Print Assumptions C115_document.
Print Assumptions C115_slice.
Print Assumptions C115_pointee_refuted.
Print Assumptions C115_full_refuted.
Print Assumptions C115_struct_refuted.
Print Assumptions C115_same_refuted.
Print Assumptions C115_nil_refuted.
Print Assumptions C115_quote_refuted.
Print Assumptions C116_layout.
Print Assumptions C116_bucket.
Print Assumptions C116_buckets.
Print Assumptions C116_ends.
Print Assumptions C116_cycle_refuted.
Print Assumptions C116_count.
Print Assumptions C116_count_refuted.
Print Assumptions C116_full_refuted.
Print Assumptions C116_old.
Print Assumptions C116_big_keys_refuted.
Print Assumptions C117_finite.
Print Assumptions C117_list_refuted.
Print Assumptions C117_full_refuted.
