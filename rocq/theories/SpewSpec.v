(** What the texts of go-spew's Dump should be, said without the state that the code carries around: a tree is what a value unfolds to, with the pointers that
    are not followed again, and the text of a tree is put together from the texts of its parts. *)
From Verif Require Import Base SpewModel.
Open Scope Z_scope.
Open Scope list_scope.
From Coq Require Import Permutation.

(** ** Hexadecimal numerals *)
Definition hexValue (c : Z) : option Z := if (48 <=? c) && (c <=? 57) then Some (c - 48) else if (97 <=? c) && (c <=? 102) then Some (c - 87) else None.
(** The number that digits stand for, the most significant digit first *)
Inductive hex_number : bytes -> Z -> Prop :=
| hex_none : hex_number [] 0
| hex_snoc ds n c v : hex_number ds n -> hexValue c = Some v -> hex_number (ds ++ [c]) (16 * n + v).
(** The text of an address: "<nil>" for 0, otherwise 0x and its digits without zeros in front *)
Definition address_text (p : Z) (t : bytes) : Prop :=
  (p = 0 /\ t = bs "<nil>") \/
  (p <> 0 /\ exists c ds, t = bs "0x" ++ c :: ds /\ c <> 48 /\ hex_number (c :: ds) p).

(** ** What a value contains *)
(** The value that is in an interface; the name of the type of a value *)
Definition outOf (v : sval) : sval := match v with SIface _ (Some w) => w | v => v end.
Definition typeName (v : sval) : bytes :=
  match v with SBasic t _ => t | SPtr t _ => t | SIface t _ => t | SArr t _ => t | SSlice t _ _ => t | SHex t _ _ => t | SMap t _ => t | SStruct t _ => t end.
(** The elements, keys, values and fields of a value that is not a pointer, taken out of their interfaces *)
Inductive inside (h : heap) : sval -> sval -> Prop :=
| in_arr ty l v : In v l -> inside h (outOf v) (SArr ty l)
| in_slice ty c r v : In v (elems h r) -> inside h (outOf v) (SSlice ty c (Some r))
| in_key ty r k x : In (k, x) (entries h r) -> inside h (outOf k) (SMap ty (Some r))
| in_val ty r k x : In (k, Some x) (entries h r) -> inside h (outOf x) (SMap ty (Some r))
| in_field ty fs n e v : In (n, e, v) fs -> inside h (outOf v) (SStruct ty fs).
(** What a pointer points to, taken out of its interface *)
Inductive pointsTo (h : heap) : sval -> sval -> Prop :=
| pt ty a c : pointsTo h (outOf (cell h c)) (SPtr ty (Some (a, c))).
Inductive reach (h : heap) (v : sval) : sval -> Prop :=
| reach_self : reach h v v
| reach_inside w x : reach h v w -> inside h x w -> reach h v x
| reach_points w x : reach h v w -> pointsTo h x w -> reach h v x.
(** Following pointers from [v] ends *)
Definition chains_end (h : heap) (v : sval) : Prop := forall w, reach h v w -> Acc (pointsTo h) w.
(** Going into values without following pointers ends *)
Definition nesting_ends (h : heap) (v : sval) : Prop := forall w, reach h v w -> Acc (inside h) w.
(** The pointers in [v] have finitely many addresses *)
Definition addresses_in (h : heap) (v : sval) (addrs : list Z) : Prop := forall ty a c, reach h v (SPtr ty (Some (a, c))) -> In a addrs.

(** ** The history of the pointers *)
(** A pointer was come upon at a depth; an address was followed at a depth.  The latest event first. *)
Inductive event := EVisit (d : nat) | EAddr (a : Z) (d : nat).
(** Address [a] was followed at depth [k], and since then pointers were only come upon at larger depths *)
Definition live (hist : list event) (a : Z) (k : nat) : Prop :=
  exists later earlier, hist = later ++ EAddr a k :: earlier /\ forall j, In (EVisit j) later -> (k < j)%nat.
(** ... at a smaller depth than [d] *)
Definition shown (hist : list event) (d : nat) (a : Z) : Prop := exists k, (k < d)%nat /\ live hist a k.
(** The end of a chain of pointers *)
Inductive chainEnd := CNil (ty : bytes) | CShown (ty : bytes) | CValue (v : sval).
Definition isPtr (v : sval) : bool := match v with SPtr _ _ => true | _ => false end.
Definition isNilIface (v : sval) : bool := match v with SIface _ None => true | _ => false end.
Inductive chain (h : heap) (d : nat) : list event -> sval -> list Z -> chainEnd -> list event -> Prop :=
| ch_value hist v : isPtr v = false -> chain h d hist v [] (CValue v) hist
| ch_nil hist ty : chain h d hist (SPtr ty None) [] (CNil ty) hist
| ch_shown hist ty a c : shown hist d a -> chain h d hist (SPtr ty (Some (a, c))) [a] (CShown ty) hist
| ch_niliface hist ty a c ty' : ~ shown hist d a -> cell h c = SIface ty' None -> chain h d hist (SPtr ty (Some (a, c))) [a] (CNil ty') (EAddr a d :: hist)
| ch_more hist ty a c l e hist' : ~ shown hist d a -> isNilIface (cell h c) = false -> chain h d (EAddr a d :: hist) (outOf (cell h c)) l e hist' ->
    chain h d hist (SPtr ty (Some (a, c))) (a :: l) e hist'.

(** ** Trees *)
Inductive tree :=
| TLeaf (ty pre text : bytes)
| THex (ty pre : bytes) (b : bytes)
| TMax (ty pre : bytes)
| TBlock (ty pre : bytes) (items : list (label * tree))
| TPtr (stars : nat) (ty : bytes) (addrs : list Z) (to : target)
with label := LNone | LName (n : bytes) | LKey (k : tree)
with target := GNil | GShown | GValue (t : tree).
(** The type a pointer is shown with is the one of the value at its end *)
Definition treeType (t : tree) : bytes := match t with TLeaf ty _ _ | THex ty _ _ | TMax ty _ | TBlock ty _ _ | TPtr _ ty _ _ => ty end.
(** The parts of a value with their names or keys *)
Inductive plabel := PNone | PName (n : bytes) | PKey (k : sval).
Inductive parts (h : heap) : sval -> list (plabel * sval) -> Prop :=
| p_arr ty l : parts h (SArr ty l) (map (fun v => (PNone, v)) l)
| p_slice ty c r : parts h (SSlice ty c (Some r)) (map (fun v => (PNone, v)) (elems h r))
| p_struct ty fs : parts h (SStruct ty fs) (map (fun f => (PName (fst (fst f)), snd f)) fs)
| p_map ty r l : Permutation l (entries h r) -> parts h (SMap ty (Some r)) (flat_map (fun e => match snd e with Some v => [(PKey (fst e), v)] | None => [] end) l).

Section Text.
  Variable decimal : Z -> bytes.
  Variable quote : bytes -> bytes.
  (** The lines of hex.Dump *)
  Variable hexRows : bytes -> list bytes.
  Variable method : sval -> option mcall.
  Variable cs : config.
  Variable h : heap.

  (** "(len=2 cap=4) ", without what is 0 *)
  Fixpoint joinSpace (l : list bytes) : bytes := match l with [] => [] | [x] => x | x :: l => x ++ bs " " ++ joinSpace l end.
  Definition sizeText (len cap : Z) : bytes :=
    match (if len =? 0 then [] else [bs "len=" ++ decimal len]) ++ (if DisableCapacities cs || (cap =? 0) then [] else [bs "cap=" ++ decimal cap]) with
    | [] => []
    | l => bs "(" ++ joinSpace l ++ bs ") "
    end.
  (** The length and capacity of a value *)
  Definition sizes (v : sval) : Z * Z :=
    match v with
    | SBasic _ (BStr s) => (lenZ s, 0)
    | SBasic _ (BAddr l c _) => (l, c)
    | SArr _ l => (lenZ l, lenZ l)
    | SSlice _ c (Some r) => (lenZ (elems h r), c)
    | SHex _ c b => (lenZ b, c)
    | SMap _ (Some r) => (lenZ (entries h r), 0)
    | _ => (0, 0)
    end.
  (** What is shown of the Error or String method, and whether nothing else is *)
  Inductive says (v : sval) : bytes -> bool -> Prop :=
  | says_off : DisableMethods cs = true \/ method v = None \/ (exists ty w, v = SIface ty w) -> says v [] false
  | says_text t : DisableMethods cs = false -> (forall ty w, v <> SIface ty w) -> method v = Some (MReturns t) -> ContinueOnMethod cs = false -> says v t true
  | says_more t : DisableMethods cs = false -> (forall ty w, v <> SIface ty w) -> method v = Some (MReturns t) -> ContinueOnMethod cs = true ->
      says v (bs "(" ++ t ++ bs ") ") false
  | says_panic t : DisableMethods cs = false -> (forall ty w, v <> SIface ty w) -> method v = Some (MPanics t) ->
      says v ((if ContinueOnMethod cs then bs "(" else []) ++ match t with Some t => bs "(PANIC=" ++ t ++ bs ")" | None => [] end) false.
  (** The text of a value without parts.  Addresses: see [address_text] *)
  Inductive leafText : sval -> bytes -> Prop :=
  | lt_bool ty b : leafText (SBasic ty (BBool b)) (if b then bs "true" else bs "false")
  | lt_int ty n : leafText (SBasic ty (BInt n)) (decimal n)
  | lt_uint ty n : leafText (SBasic ty (BUint n)) (decimal n)
  | lt_float ty t r : leafText (SBasic ty (BFloat t r)) t
  | lt_complex ty t : leafText (SBasic ty (BComplex t)) t
  | lt_str ty s : leafText (SBasic ty (BStr s)) (quote s)
  | lt_uintptr ty p : leafText (SBasic ty (BUintptr p)) (hexText p)
  | lt_addr ty l c p : leafText (SBasic ty (BAddr l c p)) (hexText p)
  | lt_iface ty : leafText (SIface ty None) (bs "<nil>")
  | lt_slice ty c : leafText (SSlice ty c None) (bs "<nil>")
  | lt_map ty : leafText (SMap ty None) (bs "<nil>")
  (* an interface in an interface: there are none *)
  | lt_none ty v : leafText (SIface ty (Some v)) [].

  (** ** What a value unfolds to, at a depth and after a history *)
  Definition tooDeep (d : nat) : bool := negb (MaxDepth cs =? 0)%nat && (MaxDepth cs <? d)%nat.
  Definition pre (v : sval) (m : bytes) : bytes := sizeText (fst (sizes v)) (snd (sizes v)) ++ m.
  Inductive unfold : nat -> list event -> sval -> tree -> list event -> Prop :=
  | u_nil d hist v l ty hist' : isPtr v = true -> chain h d (EVisit d :: hist) v l (CNil ty) hist' -> unfold d hist v (TPtr (List.length l) ty l GNil) hist'
  | u_shown d hist v l ty hist' : isPtr v = true -> chain h d (EVisit d :: hist) v l (CShown ty) hist' ->
      unfold d hist v (TPtr (pred (List.length l)) ty l GShown) hist'
  | u_value d hist v l w hist1 t hist2 : isPtr v = true -> chain h d (EVisit d :: hist) v l (CValue w) hist1 -> unfold d hist1 w t hist2 ->
      unfold d hist v (TPtr (List.length l) (typeName w) l (GValue t)) hist2
  | u_says d hist v m : isPtr v = false -> says v m true -> unfold d hist v (TLeaf (typeName v) (pre v m) []) hist
  | u_leaf d hist v m text : isPtr v = false -> says v m false -> leafText v text -> unfold d hist v (TLeaf (typeName v) (pre v m) text) hist
  | u_hex d hist ty c b m : says (SHex ty c b) m false -> tooDeep (S d) = false -> unfold d hist (SHex ty c b) (THex ty (pre (SHex ty c b) m) b) hist
  | u_hexmax d hist ty c b m : says (SHex ty c b) m false -> tooDeep (S d) = true -> unfold d hist (SHex ty c b) (TMax ty (pre (SHex ty c b) m)) hist
  | u_max d hist v m l : says v m false -> parts h v l -> tooDeep (S d) = true -> unfold d hist v (TMax (typeName v) (pre v m)) hist
  | u_block d hist v m l ts hist' : says v m false -> parts h v l -> tooDeep (S d) = false -> unfoldParts (S d) hist l ts hist' ->
      unfold d hist v (TBlock (typeName v) (pre v m) ts) hist'
  with unfoldParts : nat -> list event -> list (plabel * sval) -> list (label * tree) -> list event -> Prop :=
  | up_nil d hist : unfoldParts d hist [] [] hist
  | up_cons d hist p v l lab t ts hist1 hist2 hist3 : unfoldLabel d hist p lab hist1 -> unfold d hist1 (outOf v) t hist2 -> unfoldParts d hist2 l ts hist3 ->
      unfoldParts d hist ((p, v) :: l) ((lab, t) :: ts) hist3
  with unfoldLabel : nat -> list event -> plabel -> label -> list event -> Prop :=
  | ul_none d hist : unfoldLabel d hist PNone LNone hist
  | ul_name d hist n : unfoldLabel d hist (PName n) (LName n) hist
  | ul_key d hist k t hist' : unfold d hist (outOf k) t hist' -> unfoldLabel d hist (PKey k) (LKey t) hist'.

  (** ** The text of a tree *)
  Definition ind (d : nat) : bytes := List.concat (repeat (Indent cs) d).
  Definition heading (hdr : bool) (ty : bytes) : bytes := if hdr then bs "(" ++ ty ++ bs ") " else [].
  (** Items on lines of their own, separated by commas *)
  Fixpoint itemLines (l : list bytes) : bytes := match l with [] => [] | [x] => x ++ [10] | x :: l => x ++ bs "," ++ [10] ++ itemLines l end.
  Fixpoint arrows (l : list bytes) : bytes := match l with [] => [] | [x] => x | x :: l => x ++ bs "->" ++ arrows l end.
  (** The hexdump with all its lines indented *)
  Definition hexLines (d : nat) (b : bytes) : bytes := flat_map (fun row => ind d ++ row ++ [10]) (hexRows b).
  (** [hdr]: whether the type is shown in front (after a pointer it is not) *)
  Fixpoint render (d : nat) (hdr : bool) (t : tree) : bytes :=
    match t with
    | TLeaf ty pre text => heading hdr ty ++ pre ++ text
    | THex ty pre b => heading hdr ty ++ pre ++ bs "{" ++ [10] ++ hexLines (S d) b ++ ind d ++ bs "}"
    | TMax ty pre => heading hdr ty ++ pre ++ bs "{" ++ [10] ++ ind (S d) ++ bs "<max depth reached>" ++ [10] ++ ind d ++ bs "}"
    | TBlock ty pre items =>
      heading hdr ty ++ pre ++ bs "{" ++ [10] ++
      itemLines (map (fun x => ind (S d) ++ match fst x with LNone => [] | LName n => n ++ bs ": " | LKey k => render (S d) true k ++ bs ": " end ++
        render (S d) true (snd x)) items) ++ ind d ++ bs "}"
    | TPtr stars ty addrs to =>
      bs "(" ++ repeat 42 stars ++ ty ++ bs ")" ++
      (if DisablePointerAddresses cs || match addrs with [] => true | _ => false end then [] else bs "(" ++ arrows (map hexText addrs) ++ bs ")") ++
      bs "(" ++ match to with GNil => bs "<nil>" | GShown => bs "<already shown>" | GValue t => render d false t end ++ bs ")"
    end.
End Text.

(** The addresses of a tree from left to right: those that are followed (true) and those that were shown already (false) *)
Fixpoint marks (t : tree) : list (bool * Z) :=
  match t with
  | TBlock _ _ items => flat_map (fun x => match fst x with LKey k => marks k | _ => [] end ++ marks (snd x)) items
  | TPtr _ _ addrs GShown => map (pair true) (removelast addrs) ++ [(false, last addrs 0)]
  | TPtr _ _ addrs GNil => map (pair true) addrs
  | TPtr _ _ addrs (GValue t) => map (pair true) addrs ++ marks t
  | _ => []
  end.

(** ** Sorting *)
Inductive sorted {A} (less : A -> A -> bool) : list A -> Prop :=
| sorted_nil : sorted less []
| sorted_cons x l : (forall y, In y l -> less y x = false) -> sorted less l -> sorted less (x :: l).
(** [less] is an order that tells the members of [l] apart *)
Definition orders {A} (less : A -> A -> bool) (l : list A) : Prop :=
  (forall x, In x l -> less x x = false) /\
  (forall x y z, In x l -> In y l -> In z l -> less x y = true -> less y z = true -> less x z = true) /\
  (forall x y, In x l -> In y l -> less x y = false -> less y x = false -> x = y).
(** What sort.Sort promises: the same elements; in order, if there is one *)
Definition sorts {A} (sortBy : (A -> A -> bool) -> list A -> list A) : Prop :=
  forall less l, Permutation (sortBy less l) l /\ (orders less l -> sorted less (sortBy less l)).
(** Keys of one map have one kind: they are all sorted by their values or all by texts, and all arrays or none *)
Definition arrayKey (k : sval) : bool := match k with SArr _ (_ :: _) | SHex _ _ _ => true | _ => false end.
Definition byValue (k : sval) : bool :=
  match k with SBasic _ (BComplex _) => false | SBasic _ (BAddr _ _ _) => false | SBasic _ _ => true | SArr _ _ => true | SHex _ _ _ => true | _ => false end.
Definition oneKind (l : list entry) : Prop :=
  forall a b, In a l -> In b l -> byValue (fst a) = byValue (fst b) /\ arrayKey (fst a) = arrayKey (fst b).
(** Keys of one kind that values can be sorted by: bool, integers, strings, uintptr, floats that are numbers, arrays of bytes, arrays of such keys (without
    floats) *)
Inductive sameKind : sval -> sval -> Prop :=
| sk_bool t a b : sameKind (SBasic t (BBool a)) (SBasic t (BBool b))
| sk_int t a b : sameKind (SBasic t (BInt a)) (SBasic t (BInt b))
| sk_uint t a b : sameKind (SBasic t (BUint a)) (SBasic t (BUint b))
| sk_str t a b : sameKind (SBasic t (BStr a)) (SBasic t (BStr b))
| sk_uintptr t a b : sameKind (SBasic t (BUintptr a)) (SBasic t (BUintptr b))
| sk_hex t c a b : sameKind (SHex t c a) (SHex t c b)
| sk_arr t l l' : sameKinds l l' -> sameKind (SArr t l) (SArr t l')
with sameKinds : list sval -> list sval -> Prop :=
| sks_nil : sameKinds [] []
| sks_cons a b l l' : sameKind a b -> sameKinds l l' -> sameKinds (a :: l) (b :: l').
Inductive floatKind : sval -> sval -> Prop :=
| fk t x a y b : a <> b \/ x = y -> floatKind (SBasic t (BFloat x (Some a))) (SBasic t (BFloat y (Some b))).
(** Keys that Dump sorts by their values *)
Definition plainKeys (l : list entry) : Prop :=
  (forall a b, In a l -> In b l -> sameKind (fst a) (fst b)) \/ (forall a b, In a l -> In b l -> floatKind (fst a) (fst b)).
(** The keys of a map differ *)
Definition distinctKeys (l : list entry) : Prop := forall a b, In a l -> In b l -> fst a = fst b -> a = b.
(** A text before another: a beginning of it, or with a smaller byte at the first difference *)
Definition lexBefore (a b : bytes) : Prop := (exists x c, b = a ++ x :: c) \/ (exists p x y c d, a = p ++ x :: c /\ b = p ++ y :: d /\ x < y).
(** Keys before others of their kind: false before true, numbers by size, arrays by their first difference *)
Inductive before : sval -> sval -> Prop :=
| bf_bool t : before (SBasic t (BBool false)) (SBasic t (BBool true))
| bf_int t a b : a < b -> before (SBasic t (BInt a)) (SBasic t (BInt b))
| bf_uint t a b : a < b -> before (SBasic t (BUint a)) (SBasic t (BUint b))
| bf_uintptr t a b : a < b -> before (SBasic t (BUintptr a)) (SBasic t (BUintptr b))
| bf_float t x a y b : a < b -> before (SBasic t (BFloat x (Some a))) (SBasic t (BFloat y (Some b)))
| bf_str t a b : lexBefore a b -> before (SBasic t (BStr a)) (SBasic t (BStr b))
| bf_hex t c a b : lexBefore a b -> before (SHex t c a) (SHex t c b)
| bf_arr t p x y c d : before x y -> before (SArr t (p ++ x :: c)) (SArr t (p ++ y :: d)).
(** Keys that are not sorted by their values: complex numbers, channels and unsafe pointers, pointers, interfaces, structs *)
Inductive byText : sval -> Prop :=
| bt_complex t x : byText (SBasic t (BComplex x))
| bt_addr t l c p : byText (SBasic t (BAddr l c p))
| bt_ptr t p : byText (SPtr t p)
| bt_iface t v : byText (SIface t v)
| bt_struct t fs : byText (SStruct t fs).
(** The same settings without SortKeys *)
Definition unsorted (cs : config) : config :=
  {| Indent := Indent cs; MaxDepth := MaxDepth cs; DisableMethods := DisableMethods cs; DisablePointerAddresses := DisablePointerAddresses cs;
     DisableCapacities := DisableCapacities cs; ContinueOnMethod := ContinueOnMethod cs; SortKeys := false; SpewKeys := SpewKeys cs |}.
(** The same values at other addresses *)
Fixpoint moved (rho : Z -> Z) (v : sval) : sval :=
  match v with
  | SPtr t (Some (a, c)) => SPtr t (Some (rho a, c))
  | SIface t (Some w) => SIface t (Some (moved rho w))
  | SArr t l => SArr t (map (moved rho) l)
  | SStruct t fs => SStruct t (map (fun f => (fst f, moved rho (snd f))) fs)
  | v => v
  end.
Definition movedEntry (rho : Z -> Z) (e : entry) : entry := (moved rho (fst e), option_map (moved rho) (snd e)).
Definition movedHeap (rho : Z -> Z) (h : heap) : heap :=
  {| cell := fun c => moved rho (cell h c); elems := fun r => map (moved rho) (elems h r); entries := fun r => map (movedEntry rho) (entries h r) |}.
(** The same memory, but for the order in which maps give their keys *)
Definition reordered (h h' : heap) : Prop :=
  (forall c, cell h' c = cell h c) /\ (forall r, elems h' r = elems h r) /\ (forall r, Permutation (entries h' r) (entries h r)).

(** The text of several arguments: one after the other, each with a newline; a nil argument has a text of its own *)
Section Args.
  Variable decimal : Z -> bytes.
  Variable quote : bytes -> bytes.
  Variable hexRows : bytes -> list bytes.
  Variable method : sval -> option mcall.
  Variable cs : config.
  Variable h : heap.
  Inductive dumped : list (option sval) -> bytes -> Prop :=
  | dumped_none : dumped [] []
  | dumped_nil args t : dumped args t -> dumped (None :: args) (bs "(interface {}) <nil>" ++ [10] ++ t)
  | dumped_value v args tr hist t : unfold decimal quote method cs h 0 [] v tr hist -> dumped args t ->
      dumped (Some v :: args) (render hexRows cs 0 true tr ++ [10] ++ t).
End Args.
