(** C103: Dump comes to an end.  C104: the text of Dump.  C105: sorted keys.  C106: the text of an address.  C107: methods.
    Everything outside go-spew (strconv, hex.Dump, sort.Sort, the methods of values, ==) is a variable. *)
From Verif Require Import Base SpewModel SpewSpec SpewProofs SpewProofs2 SpewProofs3 SpewProofs4.
Open Scope Z_scope.
Open Scope list_scope.
From Coq Require Import Permutation Lia.

(** ** Things to try the theorems on *)
Fixpoint decNat (fuel n : nat) : bytes := match fuel with O => [] | S fuel => (if (n <? 10)%nat then [] else decNat fuel (n / 10)) ++ [48 + Z.of_nat (n mod 10)] end.
Definition dec (n : Z) : bytes := if n <? 0 then 45 :: decNat 20 (Z.to_nat (- n)) else decNat 20 (Z.to_nat n).
Definition quoted (s : bytes) : bytes := [34] ++ s ++ [34].
Definition row (b : bytes) : list bytes := [bs "00"].
Definition rowDump (b : bytes) : bytes := bs "00" ++ [10].
Definition noMethod (v : sval) : option mcall := None.
Fixpoint insert (less : entry -> entry -> bool) (x : entry) (l : list entry) : list entry :=
  match l with [] => [x] | y :: l' => if less y x then y :: insert less x l' else x :: l end.
Fixpoint isort (less : entry -> entry -> bool) (l : list entry) : list entry := match l with [] => [] | x :: l => insert less x (isort less l) end.
Definition plainCfg : config :=
  {| Indent := bs " "; MaxDepth := 0; DisableMethods := false; DisablePointerAddresses := false; DisableCapacities := false; ContinueOnMethod := false; SortKeys := false; SpewKeys := false |}.
(** The configuration testify compares with: test/testify/assert/assertions.go:1242-1247 *)
Definition spewConfig : config :=
  {| Indent := bs " "; MaxDepth := 0; DisableMethods := false; DisablePointerAddresses := true; DisableCapacities := true; ContinueOnMethod := false; SortKeys := true; SpewKeys := false |}.
Definition int (n : Z) : sval := SBasic (bs "int") (BInt n).
Definition emptyHeap : heap := {| cell := fun _ => int 0; elems := fun _ => []; entries := fun _ => [] |}.
Definition never (a b : sval) : bool := false.
Definition noKey (v : sval) : bytes := [].

Lemma insert_perm less x l : Permutation (insert less x l) (x :: l).
Proof. induction l as [|y l IH]; [reflexivity|]. cbn. destruct (less y x); [|reflexivity]. rewrite IH. apply perm_swap. Qed.
Lemma isort_perm less l : Permutation (isort less l) l.
Proof. induction l as [|x l IH]; [reflexivity|]. cbn. rewrite insert_perm. constructor. exact IH. Qed.
Lemma insert_sorted less x l (O : orders less (x :: l)) : sorted less l -> sorted less (insert less x l).
Proof.
  destruct O as (IR & TR & TO). revert IR TR TO. induction l as [|y l IH]; intros IR TR TO SL; [constructor; [intros ? []|constructor]|]. cbn. inversion SL as [|y0 l0 F SL']; subst. destruct (less y x) eqn:L.
  - constructor.
    + intros z I. apply (Permutation_in _ (insert_perm less x l)) in I. destruct I as [->|I]; [|auto]. destruct (less z y) eqn:L2; [|reflexivity]. exfalso.
      assert (less z z = true) by (apply (TR z y z); cbn; auto). rewrite IR in H by (left; reflexivity). discriminate.
    + apply IH; [intros z [->|I]; apply IR; cbn; auto|intros a b c Ia Ib Ic; apply TR; cbn in *; tauto|intros a b Ia Ib; apply TO; cbn in *; tauto|exact SL'].
  - constructor; [|exact SL]. intros z [<-|I]; [exact L|]. destruct (less z x) eqn:L2; [|reflexivity]. exfalso.
    assert (N : less z y = false) by auto.
    destruct (less x y) eqn:L3.
    + assert (less z y = true) by (apply (TR z x y); cbn; auto). congruence.
    + assert (x = y) by (apply TO; cbn; auto). subst. congruence.
Qed.
Lemma isort_sorts : sorts isort.
Proof.
  intros less l. split; [apply isort_perm|]. induction l as [|x l IH]; intros O; [constructor|]. cbn. apply insert_sorted.
  - eapply orders_perm; [|exact O]. constructor. apply Permutation_sym, isort_perm.
  - apply IH. destruct O as (IR & TR & TO). repeat split; [intros a I; apply IR; right; exact I|intros a b c Ia Ib Ic; apply TR; right; assumption|intros a b Ia Ib; apply TO; right; assumption].
Qed.

(** ** C103: Dump comes to an end *)
Section C103.
  Variable decimal : Z -> bytes.
  Variable quote : bytes -> bytes.
  Variable hexDump : bytes -> bytes.
  Variable method : sval -> option mcall.
  Variable valueEq : sval -> sval -> bool.
  Variable spewKey : sval -> bytes.
  Variable sortBy : (entry -> entry -> bool) -> list entry -> list entry.
  Variable cs : config.
  Variable h : heap.
  (** Every way back goes through a pointer, and pointers do not go round among themselves: then Dump ends, whatever it was doing before *)
  Theorem C103_ends_partial v addrs : (forall less l, Permutation (sortBy less l) l) -> chains_end h v -> nesting_ends h v -> addresses_in h v addrs ->
    forall ro st, exists fuel, dump decimal quote hexDump method valueEq spewKey sortBy cs h fuel ro v st <> DHang.
  Proof. intros P A B C ro st. eapply dump_ends; eauto. Qed.
  (** With a limit for the depth, pointers that do not go round are enough *)
  Theorem C103_limit_partial v : (forall less l, Permutation (sortBy less l) l) -> MaxDepth cs <> O -> chains_end h v ->
    forall ro st, exists fuel, dump decimal quote hexDump method valueEq spewKey sortBy cs h fuel ro v st <> DHang.
  Proof. intros P M A ro st. apply dump_ends_max; assumption. Qed.
  (** Once it ended, the result is the same with more steps *)
  Theorem C103_result fuel fuel' ro v st : (fuel <= fuel')%nat -> dump decimal quote hexDump method valueEq spewKey sortBy cs h fuel ro v st <> DHang ->
    dump decimal quote hexDump method valueEq spewKey sortBy cs h fuel' ro v st = dump decimal quote hexDump method valueEq spewKey sortBy cs h fuel ro v st.
  Proof. intros L N. apply (dump_le decimal quote hexDump method valueEq spewKey sortBy cs h fuel fuel' ro L). exact N. Qed.

  (** A pointer that points to itself (type P *P; p = &p, or an interface that holds its own address) is followed for ever, at any limit *)
  Theorem C103_pointer_refuted ty a c : unpackValue (cell h c) = SPtr ty (Some (a, c)) -> forall fuel ro out,
    dump decimal quote hexDump method valueEq spewKey sortBy cs h fuel ro (SPtr ty (Some (a, c))) (newDump out) = DHang.
  Proof.
    intros E [|fuel] ro out; [reflexivity|]. rewrite dump_step. cbn [step]. unfold indent, dumpPtr. cbn [newDump dIgnI dw dDepth dPtrs forget filter].
    assert (G : forall f m i l, (forall b k, In (b, k) m -> k = O) -> chase h f 0 m (SPtr ty (Some (a, c))) i l = None).
    { induction f as [|f IH]; intros m i l B; [reflexivity|]. cbn [chase].
      assert (A : above 0 a m = false) by (apply not_true_is_false; intros A; apply above_spec in A; destruct A as (k & L & _); lia). rewrite A.
      assert (B' : forall b k, In (b, k) (put 0 a m) -> k = O) by (intros b k I; apply In_put in I; destruct I as [[_ ->]|[_ I]]; [reflexivity|eauto]).
      destruct (cell h c) as [| |ty' [w|]| | | | |]; cbn [unpackValue] in E; try discriminate E; rewrite E; apply IH; exact B'. }
    rewrite (G fuel [] O [] ltac:(intros b k [])). reflexivity.
  Qed.
  (** Without a limit, so is a slice that contains itself *)
  Theorem C103_slice_refuted ty cp r w l : MaxDepth cs = O -> method (SSlice ty cp (Some r)) = None -> elems h r = w :: l -> unpackValue w = SSlice ty cp (Some r) -> forall fuel ro st,
    dump decimal quote hexDump method valueEq spewKey sortBy cs h fuel ro (SSlice ty cp (Some r)) st = DHang.
  Proof.
    intros M Me El Un. induction fuel as [|fuel IH]; intros ro st; [reflexivity|]. rewrite dump_step. cbn [step]. unfold handleMethods. rewrite Me.
    replace (snd (if negb (DisableMethods cs) then _ else _)) with false by (destruct (DisableMethods cs); reflexivity). unfold braces. rewrite M. cbn [Nat.eqb negb andb].
    rewrite El. cbn [sliceLoop]. rewrite Un, IH. reflexivity.
  Qed.
  (** and a map that contains itself *)
  Theorem C103_map_refuted ty r k w : MaxDepth cs = O -> SortKeys cs = false -> method (SMap ty (Some r)) = None -> (forall fuel ro st, exists st', dump decimal quote hexDump method valueEq spewKey sortBy cs h (S fuel) ro (unpackValue k) st = DEnd st') ->
    entries h r = [(k, Some w)] -> unpackValue w = SMap ty (Some r) -> forall fuel ro st,
    dump decimal quote hexDump method valueEq spewKey sortBy cs h fuel ro (SMap ty (Some r)) st = DHang.
  Proof.
    intros M SK Me K El Un. induction fuel as [|fuel IH]; intros ro st; [reflexivity|]. rewrite dump_step. cbn [step]. unfold handleMethods. rewrite Me.
    replace (snd (if negb (DisableMethods cs) then _ else _)) with false by (destruct (DisableMethods cs); reflexivity). unfold braces. rewrite M. cbn [Nat.eqb negb andb].
    rewrite SK, El. cbn [mapLoop]. destruct fuel as [|fuel]; [reflexivity|]. match goal with |- context[dbind (dump _ _ _ _ _ _ _ _ _ _ ?ro (unpackValue k) ?s) _] => destruct (K fuel ro s) as (s' & ->) end. cbn [dbind]. rewrite Un, IH. reflexivity.
  Qed.
End C103.
(** "circular data structures are detected and handled properly" (dump.go:249-250) *)
Definition C103_full : Prop := forall decimal quote hexDump method valueEq spewKey sortBy cs h v, sorts sortBy ->
  exists fuel, dump decimal quote hexDump method valueEq spewKey sortBy cs h fuel false v (newDump []) <> DHang.
Definition loopHeap : heap := {| cell := fun _ => SPtr (bs "main.P") (Some (4096, 0)); elems := fun _ => [SIface (bs "interface {}") (Some (SSlice (bs "[]interface {}") 1 (Some 0)))];
  entries := fun _ => [(int 1, Some (SIface (bs "interface {}") (Some (SMap (bs "map[int]interface {}") (Some 0)))))] |}.
Theorem C103_full_refuted : ~ C103_full.
Proof.
  intros F. destruct (F dec quoted rowDump noMethod never noKey isort plainCfg loopHeap (SPtr (bs "main.P") (Some (4096, 0))) isort_sorts) as (fuel & N). apply N. apply C103_pointer_refuted. reflexivity.
Qed.
(** The three loops, and testify's configuration for the slice; a list whose node points back to itself ends *)
Definition node (next : sval) : sval := SStruct (bs "main.N") [(bs "next", false, next)].
Definition ringHeap : heap := {| cell := fun c => node (SPtr (bs "*main.N") (Some (4096, 0))); elems := fun _ => []; entries := fun _ => [] |}.
Definition ring : sval := SPtr (bs "*main.N") (Some (4096, 0)).
Lemma ring_reach w : reach ringHeap ring w -> w = ring \/ w = node ring.
Proof.
  induction 1 as [|w x _ IH I|w x _ IH P]; [auto| |].
  - destruct IH as [->| ->]; inversion I as [| | | |ty fs n e v J]. destruct J as [J|[]]. injection J as <- <- <-. auto.
  - destruct IH as [->| ->]; inversion P; subst. auto.
Qed.
Example C103_example :
  (forall fuel, dump dec quoted rowDump noMethod never noKey isort spewConfig loopHeap fuel false (SSlice (bs "[]interface {}") 1 (Some 0)) (newDump []) = DHang) /\
  (forall fuel, dump dec quoted rowDump noMethod never noKey isort plainCfg loopHeap fuel false (SMap (bs "map[int]interface {}") (Some 0)) (newDump []) = DHang) /\
  chains_end ringHeap ring /\ nesting_ends ringHeap ring /\ addresses_in ringHeap ring [4096] /\
  fdump dec quoted rowDump noMethod never noKey isort plainCfg ringHeap 9 [Some ring; None] [] =
    Some (Some (bs "(*main.N)(0x1000)({" ++ [10] ++ bs " next: (*main.N)(0x1000)(<already shown>)" ++ [10] ++ bs "})" ++ [10] ++ bs "(interface {}) <nil>" ++ [10])) /\
  exists fuel, dump dec quoted rowDump noMethod never noKey isort
    {| Indent := bs " "; MaxDepth := 2; DisableMethods := false; DisablePointerAddresses := true; DisableCapacities := true; ContinueOnMethod := false; SortKeys := true; SpewKeys := false |}
    loopHeap fuel false (SSlice (bs "[]interface {}") 1 (Some 0)) (newDump []) <> DHang.
Proof.
  assert (N1 : Acc (inside ringHeap) ring) by (constructor; intros y I; inversion I).
  split; [intros fuel; eapply C103_slice_refuted; reflexivity|]. split; [intros fuel; eapply C103_map_refuted; try reflexivity|].
  { intros f ro st. rewrite dump_step. eexists. reflexivity. }
  split; [|split; [|split; [|split]]].
  - intros w R. destruct (ring_reach w R) as [->| ->]; [|constructor; intros y P; inversion P]. constructor. intros y P. inversion P. constructor. intros z P2. inversion P2.
  - intros w R. destruct (ring_reach w R) as [->| ->]; [exact N1|]. constructor. intros y I. inversion I as [| | | |ty fs n e v J]. destruct J as [J|[]]. injection J as <- <- <-. exact N1.
  - intros ty a c R. destruct (ring_reach _ R) as [E|E]; [injection E as _ -> _; left; reflexivity|discriminate].
  - vm_compute. reflexivity.
  - exists 9%nat. vm_compute. discriminate.
Qed.

(** ** C104: the text of Dump *)
Section C104.
  Variable decimal : Z -> bytes.
  Variable quote : bytes -> bytes.
  Variable hexDump : bytes -> bytes.
  Variable hexRows : bytes -> list bytes.
  Variable method : sval -> option mcall.
  Variable valueEq : sval -> sval -> bool.
  Variable spewKey : sval -> bytes.
  Variable sortBy : (entry -> entry -> bool) -> list entry -> list entry.
  Variable cs : config.
  Variable h : heap.
  (** Whenever it ends without a panic, the text of Dump is that of the trees its arguments unfold to; there must be no keys that are not equal to themselves *)
  Theorem C104_text_partial fuel args out t : (forall less l, Permutation (sortBy less l) l) -> (forall r k, ~ In (k, None) (entries h r)) -> ~ In 10 (Indent cs) ->
    (forall b, hexDump b = flat_map (fun row => row ++ [10]) (hexRows b) /\ forall row, In row (hexRows b) -> ~ In 10 row) ->
    fdump decimal quote hexDump method valueEq spewKey sortBy cs h fuel args out = Some (Some t) ->
    exists s, t = out ++ s /\ dumped decimal quote hexRows method cs h args s.
  Proof.
    intros P N I R. revert out. induction args as [|[v|] args IH]; intros out E; cbn [fdump] in E.
    - injection E as <-. exists []. rewrite app_nil_r. split; [reflexivity|constructor].
    - destruct (dump decimal quote hexDump method valueEq spewKey sortBy cs h fuel false v (newDump out)) as [st| |] eqn:D; try discriminate.
      destruct (proj2 (dump_wrote decimal quote hexDump hexRows method valueEq spewKey sortBy cs h P N I R fuel false v) _ _ [] D) as (tr & hist & U & O & _); [|reflexivity|].
      + intros a k. split; [intros []|]. intros (l1 & l2 & X & _). destruct l1; discriminate.
      + apply IH in E. destruct E as (s & -> & Ds). rewrite O. cbn [newDump dOut dDepth dIgnI]. change (ind cs 0) with (@nil Z). cbn [app]. exists (render hexRows cs 0 true tr ++ [10] ++ s). split; [rewrite <- !app_assoc; reflexivity|].
        econstructor; [exact U|exact Ds].
    - apply IH in E. destruct E as (s & -> & Ds). exists (bs "(interface {}) <nil>" ++ [10] ++ s). split; [rewrite <- !app_assoc; reflexivity|constructor; exact Ds].
  Qed.
  (** "<already shown>" is only said of an address that was followed before, further to the left *)
  Theorem C104_shown v t hist l1 a l2 : unfold decimal quote method cs h 0 [] v t hist -> marks t = l1 ++ (false, a) :: l2 -> In (true, a) l1.
  Proof. intros U E. destruct (unfold_good _ _ _ _ _ _ _ _ _ _ U) as [_ G]. destruct (G _ _ _ E) as [[k []]|X]. exact X. Qed.
End C104.
(** The text is that of the trees, with nothing said about the keys *)
Definition C104_full : Prop := forall decimal quote hexDump hexRows method valueEq spewKey sortBy cs h fuel args out t, (forall less l, Permutation (sortBy less l) l) -> ~ In 10 (Indent cs) ->
  (forall b, hexDump b = flat_map (fun row => row ++ [10]) (hexRows b) /\ forall row, In row (hexRows b) -> ~ In 10 row) ->
  fdump decimal quote hexDump method valueEq spewKey sortBy cs h fuel args out = Some (Some t) ->
  exists s, t = out ++ s /\ dumped decimal quote hexRows method cs h args s.
(** map[float64]int{NaN: 1} *)
Definition nanHeap : heap := {| cell := fun _ => int 0; elems := fun _ => []; entries := fun _ => [(SBasic (bs "float64") (BFloat (bs "NaN") None), None)] |}.
Definition nanMap : sval := SMap (bs "map[float64]int") (Some 0).
(** The value of a NaN key is not found, and the indentation of what follows is lost: the } is at the beginning of its line *)
Theorem C104_nan_refuted : fdump dec quoted rowDump noMethod never noKey isort plainCfg nanHeap 9 [Some (SStruct (bs "main.T") [(bs "M", true, nanMap); (bs "B", true, int 2)])] [] =
  Some (Some (bs "(main.T) {" ++ [10] ++ bs " M: (map[float64]int) (len=1) {" ++ [10] ++ bs "  (float64) NaN: <invalid>" ++ [10] ++ bs "}," ++ [10] ++ bs " B: (int) 2" ++ [10] ++ bs "}" ++ [10])).
Proof. vm_compute. reflexivity. Qed.
Lemma row_rows : forall b, rowDump b = flat_map (fun row => row ++ [10]) (row b) /\ forall r, In r (row b) -> ~ In 10 r.
Proof. intros b. split; [reflexivity|]. intros r [<-|[]] I. vm_compute in I. destruct I as [|[|[]]]; discriminate. Qed.
Lemma nanText : fdump dec quoted rowDump noMethod never noKey isort plainCfg nanHeap 9 [Some nanMap] [] =
  Some (Some ([] ++ bs "(map[float64]int) (len=1) {" ++ [10] ++ bs " (float64) NaN: <invalid>" ++ [10] ++ bs "}" ++ [10])).
Proof. vm_compute. reflexivity. Qed.
Theorem C104_full_refuted : ~ C104_full.
Proof.
  intros F. destruct (F dec quoted rowDump row noMethod never noKey isort plainCfg nanHeap 9%nat [Some nanMap] [] _ isort_perm ltac:(vm_compute; intros [|[]]; discriminate) row_rows nanText) as (s & E & D).
  apply app_inv_head in E. inversion D as [| |v args tr hist t U Dn Ea Es]; subst v args. inversion Dn; subst t. rewrite <- Es in E. clear D Dn Es.
  inversion U as [| | |d hist0 v m P SA|d hist0 v m text P SA LT| | |d hist0 v m l SA PA TD|d hist0 v m l ts hist' SA PA TD UP]; subst; try discriminate.
  - inversion SA; subst; discriminate.
  - inversion LT.
  - inversion PA as [| | |ty r l0 PL]; subst. cbn [nanHeap entries] in PL. apply Permutation_sym, Permutation_length_1_inv in PL. subst. cbn in UP. inversion UP; subst.
    inversion SA; subst; discriminate.
Qed.
(** A pointer that is not in a cycle is not followed again, either, if it was followed before and less deep: A and B.C are the same pointer *)
Definition twice : sval := SStruct (bs "main.T") [(bs "A", true, SPtr (bs "*int") (Some (4096, 0))); (bs "B", true, SStruct (bs "main.U") [(bs "C", true, SPtr (bs "*int") (Some (4096, 0)))])].
Theorem C104_again_refuted : fdump dec quoted rowDump noMethod never noKey isort plainCfg emptyHeap 9 [Some twice] [] =
  Some (Some (bs "(main.T) {" ++ [10] ++ bs " A: (*int)(0x1000)(0)," ++ [10] ++ bs " B: (main.U) {" ++ [10] ++ bs "  C: (*int)(0x1000)(<already shown>)" ++ [10] ++ bs " }" ++ [10] ++ bs "}" ++ [10])).
Proof. vm_compute. reflexivity. Qed.
(** The other way round, A.C and B, it is followed twice *)
Example C104_example :
  fdump dec quoted rowDump noMethod never noKey isort plainCfg emptyHeap 9 [Some (SStruct (bs "main.T") [(bs "B", true, SStruct (bs "main.U") [(bs "C", true, SPtr (bs "*int") (Some (4096, 0)))]);
    (bs "A", true, SPtr (bs "*int") (Some (4096, 0))); (bs "S", false, SHex (bs "[]uint8") 4 [0])])] (bs ">") =
  Some (Some (bs ">" ++ bs "(main.T) {" ++ [10] ++ bs " B: (main.U) {" ++ [10] ++ bs "  C: (*int)(0x1000)(0)" ++ [10] ++ bs " }," ++ [10] ++ bs " A: (*int)(0x1000)(0)," ++ [10] ++
    bs " S: ([]uint8) (len=1 cap=4) {" ++ [10] ++ bs "  00" ++ [10] ++ bs " }" ++ [10] ++ bs "}" ++ [10])) /\
  (exists s, dumped dec quoted row noMethod plainCfg emptyHeap [Some twice] s) /\
  (exists t hist, unfold dec quoted noMethod plainCfg emptyHeap 0 [] twice t hist /\ marks t = [(true, 4096)] ++ (false, 4096) :: []).
Proof.
  split; [vm_compute; reflexivity|]. split.
  - destruct (C104_text_partial dec quoted rowDump row noMethod never noKey isort plainCfg emptyHeap 9 [Some twice] [] _ isort_perm ltac:(intros r k []) ltac:(vm_compute; intros [|[]]; discriminate) row_rows C104_again_refuted) as (s & _ & D).
    exists s. exact D.
  - exists (TBlock (bs "main.T") [] [(LName (bs "A"), TPtr 1 (bs "int") [4096] (GValue (TLeaf (bs "int") [] (bs "0"))));
      (LName (bs "B"), TBlock (bs "main.U") [] [(LName (bs "C"), TPtr 0 (bs "*int") [4096] GShown)])]).
    exists [EVisit 2; EAddr 4096 1; EVisit 1]. split; [|reflexivity].
    refine (u_block _ _ _ _ _ 0 _ twice [] _ _ _ _ (p_struct _ _ _) _ _); [constructor; right; left; reflexivity|reflexivity|].
    eapply up_cons; [constructor| |eapply up_cons; [constructor| |constructor]].
    + eapply (u_value dec quoted noMethod plainCfg emptyHeap 1 [] _ [4096] (int 0)); [reflexivity| |].
      * apply ch_more; [intros (k & _ & (l1 & l2 & X & _)); destruct l1 as [|? [|]]; discriminate|reflexivity|]. apply ch_value. reflexivity.
      * refine (u_leaf dec quoted noMethod plainCfg emptyHeap 1 _ (int 0) [] (bs "0") _ _ _); [reflexivity|constructor; right; left; reflexivity|exact (lt_int dec quoted (bs "int") 0)].
    + refine (u_block dec quoted noMethod plainCfg emptyHeap 1 _ (SStruct _ _) [] _ _ _ _ (p_struct _ _ _) _ _); [constructor; right; left; reflexivity|reflexivity|].
      eapply up_cons; [constructor| |constructor].
      eapply (u_shown dec quoted noMethod plainCfg emptyHeap 2 _ _ [4096]); [reflexivity|]. apply ch_shown. exists 1%nat. split; [lia|]. exists [EVisit 2], [EVisit 1]. split; [reflexivity|]. intros j [E|[]]. injection E as <-. lia.
Qed.

(** ** C105: with SortKeys the text does not depend on the order in which maps give their keys *)
Section C105.
  Variable decimal : Z -> bytes.
  Variable quote : bytes -> bytes.
  Variable hexDump : bytes -> bytes.
  Variable method : sval -> option mcall.
  Variable valueEq : sval -> sval -> bool.
  Variable spewKey : sval -> bytes.
  Variable sortBy : (entry -> entry -> bool) -> list entry -> list entry.
  Variable cs : config.
  (** ... for keys that are booleans, integers, strings, numbers, or arrays of bytes, booleans, integers or strings *)
  Theorem C105_plain_partial h h' : sorts sortBy -> (forall a b, sameKind a b -> (valueEq a b = true <-> a = b)) -> SortKeys cs = true -> reordered h h' ->
    (forall r, plainKeys (entries h r) /\ distinctKeys (entries h r)) ->
    forall fuel args out, fdump decimal quote hexDump method valueEq spewKey sortBy cs h fuel args out = fdump decimal quote hexDump method valueEq spewKey sortBy cs h' fuel args out.
  Proof.
    intros S E K R G fuel. assert (D : forall ro v st, dump decimal quote hexDump method valueEq spewKey sortBy cs h fuel ro v st = dump decimal quote hexDump method valueEq spewKey sortBy cs h' fuel ro v st).
    { intros ro v st. apply dump_reordered; auto. intros r. destruct (G r) as [P Di]. split; [apply plain_oneKind; [exact P|apply plain_arrayKey, P]|apply plain_orders; assumption]. }
    induction args as [|[v|] args IH]; intros out; cbn [fdump]; [reflexivity| |apply IH]. rewrite D. destruct (dump decimal quote hexDump method valueEq spewKey sortBy cs h' fuel false v (newDump out)); [apply IH|reflexivity|reflexivity].
  Qed.
  (** ... and for other keys that all have different texts, from their methods or from SpewKeys *)
  Theorem C105_texts_partial h h' : sorts sortBy -> SortKeys cs = true -> reordered h h' ->
    (forall r, exists f, sortTexts method spewKey cs (entries h r) = Some f /\ (forall a, In a (entries h r) -> byText (fst a)) /\
      (forall a b, In a (entries h r) -> In b (entries h r) -> f (fst a) = f (fst b) -> a = b)) ->
    forall fuel args out, fdump decimal quote hexDump method valueEq spewKey sortBy cs h fuel args out = fdump decimal quote hexDump method valueEq spewKey sortBy cs h' fuel args out.
  Proof.
    intros S K R G fuel. assert (D : forall ro v st, dump decimal quote hexDump method valueEq spewKey sortBy cs h fuel ro v st = dump decimal quote hexDump method valueEq spewKey sortBy cs h' fuel ro v st).
    { intros ro v st. apply dump_reordered; auto. intros r. destruct (G r) as (f & T & N0 & Di). assert (N : forall a, In a (entries h r) -> canSortSimply (fst a) = false) by (intros; apply byText_simple; auto). split; [|eapply texts_orders; eauto].
      intros a b Ia Ib. change byValue with canSortSimply. rewrite (N a Ia), (N b Ib). split; [reflexivity|]. pose proof (N a Ia) as Na. pose proof (N b Ib) as Nb. destruct (fst a) as [| | |? []| | | |]; try discriminate; destruct (fst b) as [| | |? []| | | |]; try discriminate; reflexivity. }
    induction args as [|[v|] args IH]; intros out; cbn [fdump]; [reflexivity| |apply IH]. rewrite D. destruct (dump decimal quote hexDump method valueEq spewKey sortBy cs h' fuel false v (newDump out)); [apply IH|reflexivity|reflexivity].
  Qed.
  Lemma fdump_sorted h : sorts sortBy -> SortKeys cs = true -> forall fuel args out,
    fdump decimal quote hexDump method valueEq spewKey sortBy cs h fuel args out = Some None \/
    fdump decimal quote hexDump method valueEq spewKey sortBy cs h fuel args out =
      fdump decimal quote hexDump method valueEq spewKey sortBy (unsorted cs) (inOrder valueEq method spewKey cs sortBy h) fuel args out.
  Proof.
    intros S K fuel. induction args as [|[v|] args IH]; intros out; cbn [fdump]; [right; reflexivity| |apply IH].
    destruct (dump_sorted valueEq method spewKey cs sortBy S decimal quote hexDump h K fuel false v (newDump out)) as [E|E]; rewrite E; [left; reflexivity|].
    destruct (dump _ _ _ _ _ _ _ (unsorted cs) _ _ _ _ _); [apply IH|right; reflexivity|right; reflexivity].
  Qed.
  (** ... namely the text of maps that give their keys in ascending order *)
  Theorem C105_ascending h : sorts sortBy -> (forall a b, sameKind a b -> (valueEq a b = true <-> a = b)) -> SortKeys cs = true ->
    (forall r, plainKeys (entries h r) /\ NoDup (map fst (entries h r))) ->
    exists h', reordered h h' /\ (forall r, ForallOrdPairs (fun a b => before (fst a) (fst b)) (entries h' r)) /\
      forall fuel args out, fdump decimal quote hexDump method valueEq spewKey sortBy cs h fuel args out = Some None \/
        fdump decimal quote hexDump method valueEq spewKey sortBy cs h fuel args out = fdump decimal quote hexDump method valueEq spewKey sortBy (unsorted cs) h' fuel args out.
  Proof.
    intros S E K G. exists (inOrder valueEq method spewKey cs sortBy h). split; [apply inOrder_perm, S|]. split; [|apply fdump_sorted; assumption].
    intros r. destruct (G r) as [P N]. apply plain_ascending; assumption.
  Qed.
  (** ... or for other keys in the order of their texts *)
  Theorem C105_by_texts h (f : Z -> sval -> bytes) : sorts sortBy -> SortKeys cs = true ->
    (forall r, sortTexts method spewKey cs (entries h r) = Some (f r) /\ (forall a, In a (entries h r) -> byText (fst a)) /\ NoDup (map (fun e => f r (fst e)) (entries h r))) ->
    exists h', reordered h h' /\ (forall r, ForallOrdPairs (fun a b => lexBefore (f r (fst a)) (f r (fst b))) (entries h' r)) /\
      forall fuel args out, fdump decimal quote hexDump method valueEq spewKey sortBy cs h fuel args out = Some None \/
        fdump decimal quote hexDump method valueEq spewKey sortBy cs h fuel args out = fdump decimal quote hexDump method valueEq spewKey sortBy (unsorted cs) h' fuel args out.
  Proof.
    intros S K G. exists (inOrder valueEq method spewKey cs sortBy h). split; [apply inOrder_perm, S|]. split; [|apply fdump_sorted; assumption].
    intros r. destruct (G r) as (T & B & N). apply texts_ascending; assumption.
  Qed.
  (** Which texts these are: those of the methods, if all keys have one that returns; else, with SpewKeys, the %#v *)
  Theorem C105_texts_are l f : sortTexts method spewKey cs l = Some f -> ContinueOnMethod cs = false ->
    (DisableMethods cs = false /\ forall k v, In (k, v) l -> method k = Some (MReturns (f k))) \/ (SpewKeys cs = true /\ f = spewKey).
  Proof.
    intros E C. unfold sortTexts in E. destruct (DisableMethods cs); cbn [negb andb] in E.
    - destruct (SpewKeys cs); [right; split; [reflexivity|congruence]|discriminate].
    - destruct (forallb (fun k => snd (handleMethods method cs (fst k))) l) eqn:F.
      + left. split; [reflexivity|]. intros k v I. rewrite forallb_forall in F. specialize (F (k, v) I). cbn [fst] in F. assert (X : f = fun k => fst (handleMethods method cs k)) by congruence. subst f.
        unfold handleMethods in *. destruct (method k) as [[t|t]|]; cbn [methodText] in *; rewrite ?C in *; cbn in *; try discriminate. reflexivity.
      + destruct (SpewKeys cs); [right; split; [reflexivity|congruence]|discriminate].
  Qed.
End C105.
Definition sortCfg : config :=
  {| Indent := bs " "; MaxDepth := 0; DisableMethods := false; DisablePointerAddresses := false; DisableCapacities := false; ContinueOnMethod := false; SortKeys := true; SpewKeys := false |}.
(** "Other inputs are sorted according to their Value.String() value to ensure display stability" (common.go:333-335) *)
Definition C105_full : Prop := forall decimal quote hexDump method valueEq spewKey sortBy cs h h' fuel args out, sorts sortBy -> SortKeys cs = true -> reordered h h' ->
  (forall r, oneKind (entries h r) /\ distinctKeys (entries h r)) -> (forall r k, ~ In (k, None) (entries h r)) ->
  fdump decimal quote hexDump method valueEq spewKey sortBy cs h fuel args out = fdump decimal quote hexDump method valueEq spewKey sortBy cs h' fuel args out.
(** Struct keys: map[main.K]int with the keys {1} and {2}; Value.String() is the same text for both *)
Definition structKey (n : Z) : sval := SStruct (bs "main.K") [(bs "a", true, int n)].
Definition mapHeap (l : list entry) : heap := {| cell := fun _ => int 0; elems := fun _ => []; entries := fun _ => l |}.
Theorem C105_struct_refuted : let dump12 l := fdump dec quoted rowDump noMethod never noKey isort sortCfg (mapHeap l) 9 [Some (SMap (bs "map[main.K]int") (Some 0))] [] in
  dump12 [(structKey 1, Some (int 1)); (structKey 2, Some (int 2))] <> dump12 [(structKey 2, Some (int 2)); (structKey 1, Some (int 1))].
Proof. vm_compute. discriminate. Qed.
Theorem C105_full_refuted : ~ C105_full.
Proof.
  intros F. apply C105_struct_refuted. apply F; [apply isort_sorts|reflexivity| | |].
  - repeat split; try reflexivity. intros r. cbn. apply perm_swap.
  - intros r. split; [intros a b [<-|[<-|[]]] [<-|[<-|[]]]; split; reflexivity|]. intros a b [<-|[<-|[]]] [<-|[<-|[]]] E; try reflexivity; discriminate.
  - intros r k [E|[E|[]]]; discriminate.
Qed.
(** Two array keys in a map behind an unexported field: Dump panics (Interface() of a value that must not be read) *)
Definition arrayMap : sval := SMap (bs "map[[1]int]int") (Some 0).
Definition arrKey (n : Z) : sval := SArr (bs "[1]int") [int n].
Theorem C105_unexported_refuted :
  let h := mapHeap [(arrKey 1, Some (int 1)); (arrKey 2, Some (int 2))] in
  fdump dec quoted rowDump noMethod never noKey isort sortCfg h 9 [Some (SStruct (bs "main.T") [(bs "m", false, arrayMap)])] [] = Some None /\
  exists t, fdump dec quoted rowDump noMethod never noKey isort sortCfg h 9 [Some (SStruct (bs "main.T") [(bs "M", true, arrayMap)])] [] = Some (Some t).
Proof. split; [vm_compute; reflexivity|]. eexists. vm_compute. reflexivity. Qed.
(** == for the keys that are sorted by their values *)
Fixpoint svalEq (a b : sval) {struct a} : bool :=
  match a, b with
  | SBasic _ (BBool x), SBasic _ (BBool y) => Bool.eqb x y
  | SBasic _ (BInt x), SBasic _ (BInt y) | SBasic _ (BUint x), SBasic _ (BUint y) | SBasic _ (BUintptr x), SBasic _ (BUintptr y) => x =? y
  | SBasic _ (BStr x), SBasic _ (BStr y) | SHex _ _ x, SHex _ _ y => if list_eq_dec Z.eq_dec x y then true else false
  | SArr _ la, SArr _ lb => (fix go (la lb : list sval) {struct la} : bool := match la, lb with [], [] => true | x :: la, y :: lb => svalEq x y && go la lb | _, _ => false end) la lb
  | _, _ => false
  end.
Scheme sameKind_mut := Minimality for sameKind Sort Prop with sameKinds_mut := Minimality for sameKinds Sort Prop.
Lemma svalEq_spec a b : sameKind a b -> (svalEq a b = true <-> a = b).
Proof.
  apply (sameKind_mut (fun a b => svalEq a b = true <-> a = b) (fun l l' => forall t, svalEq (SArr t l) (SArr t l') = true <-> l = l')).
  - intros t x y. cbn. rewrite Bool.eqb_true_iff. split; congruence.
  - intros t x y. cbn [svalEq]. rewrite Z.eqb_eq. split; congruence.
  - intros t x y. cbn [svalEq]. rewrite Z.eqb_eq. split; congruence.
  - intros t x y. cbn [svalEq]. destruct (list_eq_dec Z.eq_dec x y); split; congruence.
  - intros t x y. cbn [svalEq]. rewrite Z.eqb_eq. split; congruence.
  - intros t c x y. cbn [svalEq]. destruct (list_eq_dec Z.eq_dec x y); split; congruence.
  - intros t l l' _ IH. rewrite IH. split; congruence.
  - intros t. cbn. split; reflexivity.
  - intros x y l l' _ IH1 _ IH2 t. specialize (IH2 t). cbn [svalEq] in *. rewrite Bool.andb_true_iff, IH1, IH2. split; [intros [-> ->]; reflexivity|intros E; injection E as -> ->; auto].
Qed.
Example C105_before_example :
  before (SArr (bs "[2]bool") [SBasic (bs "bool") (BBool true); SBasic (bs "bool") (BBool false)]) (SArr (bs "[2]bool") [SBasic (bs "bool") (BBool true); SBasic (bs "bool") (BBool true)]) /\
  before (SBasic (bs "string") (BStr (bs "ab"))) (SBasic (bs "string") (BStr (bs "abc"))) /\ before (SBasic (bs "string") (BStr (bs "abz"))) (SBasic (bs "string") (BStr (bs "ac"))) /\
  fdump dec quoted rowDump noMethod svalEq noKey isort sortCfg (mapHeap [(SBasic (bs "bool") (BBool true), Some (int 0)); (SBasic (bs "bool") (BBool false), Some (int 1))]) 9 [Some (SMap (bs "map[bool]int") (Some 0))] [] =
    fdump dec quoted rowDump noMethod svalEq noKey isort (unsorted sortCfg) (mapHeap [(SBasic (bs "bool") (BBool false), Some (int 1)); (SBasic (bs "bool") (BBool true), Some (int 0))]) 9 [Some (SMap (bs "map[bool]int") (Some 0))] [].
Proof.
  split; [exact (bf_arr _ [_] _ _ [] [] (bf_bool _))|]. split; [constructor; left; exists 99, []; reflexivity|]. split; [|vm_compute; reflexivity].
  constructor. right. exists [97], 98, 99, [122], []. split; [reflexivity|]. split; [reflexivity|lia].
Qed.
(** Channels with the texts of a method: the hypotheses of C105_by_texts *)
Definition chanKey (n : Z) : sval := SBasic (bs "main.C") (BAddr 0 0 n).
Definition chanText (v : sval) : option mcall := match v with SBasic _ (BAddr _ _ n) => Some (MReturns (dec (9 - n))) | _ => None end.
Example C105_by_texts_example : let l := [(chanKey 1, Some (int 0)); (chanKey 2, Some (int 1))] in
  (exists f, sortTexts chanText noKey sortCfg l = Some f /\ (forall a, In a l -> byText (fst a)) /\ NoDup (map (fun e => f (fst e)) l)) /\
  fdump dec quoted rowDump chanText never noKey isort sortCfg (mapHeap l) 9 [Some (SMap (bs "map[main.C]int") (Some 0))] [] =
    fdump dec quoted rowDump chanText never noKey isort (unsorted sortCfg) (mapHeap [(chanKey 2, Some (int 1)); (chanKey 1, Some (int 0))]) 9 [Some (SMap (bs "map[main.C]int") (Some 0))] [].
Proof.
  split; [|vm_compute; reflexivity]. eexists. split; [vm_compute; reflexivity|]. split; [intros a [<-|[<-|[]]]; constructor|].
  vm_compute. constructor; [intros [E|[]]; discriminate|]. constructor; [intros []|constructor].
Qed.
Example C105_example :
  (forall a b, sameKind a b -> (svalEq a b = true <-> a = b)) /\
  plainKeys [(int 3, Some (int 0)); (int 1, Some (int 1))] /\ distinctKeys [(int 3, Some (int 0)); (int 1, Some (int 1))] /\
  reordered (mapHeap [(int 3, Some (int 0)); (int 1, Some (int 1))]) (mapHeap [(int 1, Some (int 1)); (int 3, Some (int 0))]) /\
  fdump dec quoted rowDump noMethod never noKey isort sortCfg (mapHeap [(int 3, Some (int 0)); (int 1, Some (int 1))]) 9 [Some (SMap (bs "map[int]int") (Some 0))] [] =
    Some (Some (bs "(map[int]int) (len=2) {" ++ [10] ++ bs " (int) 1: (int) 1," ++ [10] ++ bs " (int) 3: (int) 0" ++ [10] ++ bs "}" ++ [10])) /\
  (let key n := SStruct (bs "main.K") [(bs "a", true, int n)] in
   let texts v := match v with SStruct _ [(_, _, SBasic _ (BInt n))] => Some (MReturns (dec n)) | _ => None end in
   exists f, sortTexts texts noKey sortCfg [(key 2, Some (int 0)); (key 1, Some (int 1))] = Some f /\ f (key 1) <> f (key 2)).
Proof.
  split; [exact svalEq_spec|]. split; [left; intros a b [<-|[<-|[]]] [<-|[<-|[]]]; constructor|]. split; [intros a b [<-|[<-|[]]] [<-|[<-|[]]] E; try reflexivity; discriminate|].
  split; [repeat split; try reflexivity; intros r; cbn; apply perm_swap|]. split; [vm_compute; reflexivity|]. eexists. split; [vm_compute; reflexivity|]. vm_compute. discriminate.
Qed.

(** ** C106: printHexPtr *)
(** Its buffer is long enough for every address of 64 bits, and the text is 0x and the hexadecimal digits, none of them too many *)
Theorem C106_address p : 0 <= p < 2 ^ 64 -> exists t, printHexPtr p = Some t /\ address_text p t /\ (List.length t <= 18)%nat.
Proof. apply printHexPtr_spec. Qed.
(** Different addresses have different texts *)
Theorem C106_different p q t : 0 <= p < 2 ^ 64 -> 0 <= q < 2 ^ 64 -> printHexPtr p = Some t -> printHexPtr q = Some t -> p = q.
Proof.
  intros Hp Hq E1 E2. destruct (printHexPtr_spec p Hp) as (t1 & E1' & A1 & _). destruct (printHexPtr_spec q Hq) as (t2 & E2' & A2 & _).
  rewrite E1 in E1'. rewrite E2 in E2'. injection E1' as <-. injection E2' as <-. eapply address_text_inj; eauto.
Qed.
Example C106_example : printHexPtr 0 = Some (bs "<nil>") /\ printHexPtr 10 = Some (bs "0xa") /\ printHexPtr (2 ^ 64 - 1) = Some (bs "0xffffffffffffffff") /\ printHexPtr 824633720832 = Some (bs "0xc000000000").
Proof. vm_compute. auto. Qed.

(** ** C107: methods *)
Section C107.
  Variable decimal : Z -> bytes.
  Variable quote : bytes -> bytes.
  Variable hexDump : bytes -> bytes.
  Variable method : sval -> option mcall.
  Variable valueEq : sval -> sval -> bool.
  Variable spewKey : sval -> bytes.
  Variable sortBy : (entry -> entry -> bool) -> list entry -> list entry.
  Variable cs : config.
  Variable h : heap.
  (** A value with an Error or String method is shown by its text, whatever is inside: it is not looked at, so that Dump ends even if the value contains itself *)
  Theorem C107_text fuel v t out : DisableMethods cs = false -> ContinueOnMethod cs = false -> isPtr v = false -> (forall ty w, v <> SIface ty w) -> method v = Some (MReturns t) ->
    fdump decimal quote hexDump method valueEq spewKey sortBy cs h (S fuel) [Some v] out =
    Some (Some (out ++ bs "(" ++ typeText v ++ bs ") " ++ sizeText decimal cs (fst (sizes h v)) (snd (sizes h v)) ++ t ++ [10])).
  Proof.
    intros DM C P NI M. cbn [fdump]. rewrite dump_step.
    assert (O : dOut (heading1 decimal method cs h v (newDump out)) = out ++ bs "(" ++ typeText v ++ bs ") " ++ lengthText decimal cs h v ++ t).
    { unfold heading1, handleMethods. rewrite DM, M. cbn [negb methodText]. rewrite C. destruct v; try (exfalso; eapply NI; reflexivity);
        cbn [negb newDump dIgnT dIgnI dDepth indent repeatBytes dw dSetT dOut app fst snd]; rewrite ?app_nil_r, <- !app_assoc; reflexivity. }
    assert (E : step decimal quote hexDump method valueEq spewKey sortBy cs h (dump decimal quote hexDump method valueEq spewKey sortBy cs h fuel) fuel false v (newDump out) = DEnd (heading1 decimal method cs h v (newDump out))).
    { unfold step, handleMethods. rewrite DM, M. cbn [negb methodText]. rewrite C. cbn [snd]. destruct v; try discriminate; try (exfalso; eapply NI; reflexivity); reflexivity. }
    rewrite E, O, lengthText_spec, <- !app_assoc. reflexivity.
  Qed.
  (** A method that panics does not end Dump: "(PANIC=" and what it panicked with are written, and then the value as if it had no method *)
  Theorem C107_panic fuel ro ty k p st : DisableMethods cs = false -> ContinueOnMethod cs = false -> method (SBasic ty k) = Some (MPanics p) -> dIgnT st = false -> dIgnI st = false ->
    dump decimal quote hexDump method valueEq spewKey sortBy cs h (S fuel) ro (SBasic ty k) st =
    DEnd (dw (repeatBytes (Indent cs) (dDepth st) ++ bs "(" ++ ty ++ bs ") " ++ lengthText decimal cs h (SBasic ty k) ++
      match p with Some t => bs "(PANIC=" ++ t ++ bs ")" | None => [] end ++ basicText decimal quote k) st).
  Proof.
    intros DM C M T I. rewrite dump_step. cbn [step]. unfold heading1, handleMethods. rewrite DM, M. cbn [negb methodText]. rewrite C. cbn [fst snd app].
    unfold indent. rewrite T, I. cbn [negb]. unfold dw, dSetT. cbn [dOut dDepth dPtrs dIgnT dIgnI typeText]. rewrite T, I, <- !app_assoc. reflexivity.
  Qed.
  (** With DisableMethods no method is called: the text does not depend on the methods *)
  Lemma keyLess_disabled method' keys : DisableMethods cs = true -> keyLess method valueEq spewKey cs keys = keyLess method' valueEq spewKey cs keys.
  Proof. intros D. unfold keyLess. destruct keys as [|[k x] keys]; [reflexivity|]. unfold sortTexts. rewrite D. reflexivity. Qed.
  Lemma sortValues_disabled method' ro keys : DisableMethods cs = true -> sortValues method valueEq spewKey sortBy cs ro keys = sortValues method' valueEq spewKey sortBy cs ro keys.
  Proof. intros D. unfold sortValues. destruct keys as [|[k x] keys]; [reflexivity|]. rewrite (keyLess_disabled method' _ D), D. reflexivity. Qed.
  Lemma dump_disabled method' : DisableMethods cs = true -> forall fuel ro v st,
    dump decimal quote hexDump method valueEq spewKey sortBy cs h fuel ro v st = dump decimal quote hexDump method' valueEq spewKey sortBy cs h fuel ro v st.
  Proof.
    intros D. induction fuel as [|fuel IH]; intros ro v st; [reflexivity|]. rewrite !dump_step. unfold step, heading1. rewrite D. cbn [negb].
    destruct v as [ty k|ty p|ty [w|]|ty l|ty c [r|]|ty c b|ty [r|]|ty fs]; try reflexivity.
    - unfold dumpPtr. destruct (chase _ _ _ _ _ _ _) as [c|]; [|reflexivity]. destruct (cNil c); [reflexivity|]. destruct (cCycle c); [reflexivity|]. rewrite IH. reflexivity.
    - cbn [snd]. apply braces_ext. intros s. apply sliceLoop_ext. auto.
    - cbn [snd]. apply braces_ext. intros s. apply sliceLoop_ext. auto.
    - cbn [snd]. apply braces_ext. intros s. rewrite (sortValues_disabled method' ro _ D). destruct (if SortKeys cs then _ else _) as [l|]; [|reflexivity]. apply mapLoop_ext. auto.
    - cbn [snd]. apply braces_ext. intros s. apply structLoop_ext. auto.
  Qed.
  Theorem C107_disabled method' fuel args out : DisableMethods cs = true ->
    fdump decimal quote hexDump method valueEq spewKey sortBy cs h fuel args out = fdump decimal quote hexDump method' valueEq spewKey sortBy cs h fuel args out.
  Proof.
    intros D. revert out. induction args as [|[v|] args IH]; intros out; cbn [fdump]; [reflexivity| |apply IH]. rewrite (dump_disabled method' D).
    destruct (dump decimal quote hexDump method' valueEq spewKey sortBy cs h fuel false v (newDump out)); [apply IH|reflexivity|reflexivity].
  Qed.
End C107.
(** "It handles panics in any called methods by catching and displaying the error as the formatted value" (common.go:83-84): the text of a value whose method panics is the one of a method that returns it *)
Definition C107_full : Prop := forall decimal quote hexDump method valueEq spewKey sortBy cs h fuel v p, DisableMethods cs = false -> ContinueOnMethod cs = false -> isPtr v = false ->
  method v = Some (MPanics (Some p)) -> (forall w, w <> v -> method w = None) ->
  fdump decimal quote hexDump method valueEq spewKey sortBy cs h (S fuel) [Some v] [] =
  Some (Some (bs "(" ++ typeText v ++ bs ") " ++ sizeText decimal cs (fst (sizes h v)) (snd (sizes h v)) ++ bs "(PANIC=" ++ p ++ bs ")" ++ [10])).
Definition mI : sval := SBasic (bs "main.I") (BInt 7).
Definition only (m : mcall) (v : sval) : option mcall := match v with SBasic ty (BInt 7) => if list_eq_dec Z.eq_dec ty (bs "main.I") then Some m else None | _ => None end.
(** The value is shown after the panic; a panic(nil) shows nothing *)
Theorem C107_panic_refuted :
  fdump dec quoted rowDump (only (MPanics (Some (bs "no")))) never noKey isort plainCfg emptyHeap 3 [Some mI] [] = Some (Some (bs "(main.I) (PANIC=no)7" ++ [10])) /\
  fdump dec quoted rowDump (only (MPanics None)) never noKey isort plainCfg emptyHeap 3 [Some mI] [] = Some (Some (bs "(main.I) 7" ++ [10])).
Proof. split; vm_compute; reflexivity. Qed.
Theorem C107_full_refuted : ~ C107_full.
Proof.
  intros F. specialize (F dec quoted rowDump (only (MPanics (Some (bs "no")))) never noKey isort plainCfg emptyHeap 2%nat mI (bs "no") eq_refl eq_refl eq_refl eq_refl).
  rewrite (proj1 C107_panic_refuted) in F. assert (X : forall w, w <> mI -> only (MPanics (Some (bs "no"))) w = None).
  { intros w N. unfold only. destruct w as [ty k| | | | | | |]; try reflexivity. destruct k as [|n| | | | | |]; try reflexivity.
    destruct (Z.eq_dec n 7) as [->|Nn]; [|destruct n as [|[[[?|?|]|[?|?|]|]|?|]|?]; try reflexivity; contradiction]. destruct (list_eq_dec Z.eq_dec ty (bs "main.I")) as [->|]; [|reflexivity]. exfalso. apply N. reflexivity. }
  apply F in X. vm_compute in X. discriminate.
Qed.
(** A slice that contains itself, with a String method; ContinueOnMethod; DisableMethods *)
Example C107_example :
  fdump dec quoted rowDump (fun v => match v with SSlice _ _ _ => Some (MReturns (bs "loop")) | _ => None end) never noKey isort plainCfg loopHeap 1 [Some (SSlice (bs "main.L") 1 (Some 0))] [] =
    Some (Some (bs "(main.L) (len=1 cap=1) loop" ++ [10])) /\
  (let cfg dm com := {| Indent := bs " "; MaxDepth := 0; DisableMethods := dm; DisablePointerAddresses := false; DisableCapacities := false; ContinueOnMethod := com; SortKeys := false; SpewKeys := false |} in
   fdump dec quoted rowDump (only (MReturns (bs "seven"))) never noKey isort (cfg false true) emptyHeap 3 [Some mI] [] = Some (Some (bs "(main.I) (seven) 7" ++ [10])) /\
   fdump dec quoted rowDump (only (MReturns (bs "seven"))) never noKey isort (cfg true true) emptyHeap 3 [Some mI] [] = Some (Some (bs "(main.I) 7" ++ [10])) /\
   fdump dec quoted rowDump (only (MPanics (Some (bs "no")))) never noKey isort (cfg false true) emptyHeap 3 [Some mI] [] = Some (Some (bs "(main.I) ((PANIC=no)7" ++ [10]))).
Proof. vm_compute. repeat split. Qed.

Print Assumptions C103_ends_partial.
Print Assumptions C103_limit_partial.
Print Assumptions C103_result.
Print Assumptions C103_pointer_refuted.
Print Assumptions C103_slice_refuted.
Print Assumptions C103_map_refuted.
Print Assumptions C103_full_refuted.
Print Assumptions C104_text_partial.
Print Assumptions C104_shown.
Print Assumptions C104_nan_refuted.
Print Assumptions C104_full_refuted.
Print Assumptions C104_again_refuted.
Print Assumptions C105_plain_partial.
Print Assumptions C105_texts_partial.
Print Assumptions C105_ascending.
Print Assumptions C105_by_texts.
Print Assumptions C105_texts_are.
Print Assumptions C105_struct_refuted.
Print Assumptions C105_full_refuted.
Print Assumptions C105_unexported_refuted.
Print Assumptions C106_address.
Print Assumptions C106_different.
Print Assumptions C107_text.
Print Assumptions C107_panic.
Print Assumptions C107_disabled.
Print Assumptions C107_panic_refuted.
Print Assumptions C107_full_refuted.
