(** What the texts of go-spew's formatter should be for %v, %+v, %#v and %#+v: as in SpewSpec.v a tree is what a value unfolds to, and the text of a tree is put
    together from the texts of its parts. *)
From Verif Require Import Base SpewModel SpewSpec.
Open Scope Z_scope.
Open Scope list_scope.
From Coq Require Import Permutation.

Inductive fkind := KList | KMap | KStruct.
Inductive ftree :=
| FLeaf (ty text : bytes)
| FInvalid
| FMax (k : fkind) (ty said : bytes)
(* the bool: whether a part is shown with its type *)
| FBlock (k : fkind) (ty said : bytes) (items : list (flabel * (bool * ftree)))
| FPtr (stars : nat) (ty : bytes) (addrs : list Z) (to : ftarget)
with flabel := FNone | FName (n : bytes) | FKey (show : bool) (k : ftree)
with ftarget := FNil | FShown | FValue (t : ftree).

(** The parts of a value; a key whose value is not found has none *)
Inductive fparts (h : heap) : sval -> fkind -> list (plabel * option sval) -> Prop :=
| fp_arr ty l : fparts h (SArr ty l) KList (map (fun v => (PNone, Some v)) l)
| fp_slice ty c r : fparts h (SSlice ty c (Some r)) KList (map (fun v => (PNone, Some v)) (elems h r))
| fp_bytes ty c b : fparts h (SHex ty c b) KList (map (fun n => (PNone, Some (SBasic (bs "uint8") (BUint n)))) b)
| fp_struct ty fs : fparts h (SStruct ty fs) KStruct (map (fun f => (PName (fst (fst f)), Some (snd f))) fs)
| fp_map ty r l : Permutation l (entries h r) -> fparts h (SMap ty (Some r)) KMap (map (fun e => (PKey (fst e), snd e)) l).
Definition isIface (v : sval) : bool := match v with SIface _ _ => true | _ => false end.
(** The types of fields are shown; those of elements, keys and values only if they come out of an interface *)
Definition showOf (k : fkind) (v : sval) : bool := match k with KStruct => true | _ => isIface v end.

Section Format.
  Variable decimal : Z -> bytes.
  Variable method : sval -> option mcall.
  Variable cs : config.
  Variable h : heap.
  (** The flags # and + *)
  Variable sharp plus : bool.

  Inductive funfold : nat -> bool -> list event -> sval -> ftree -> list event -> Prop :=
  | f_nil_quiet d show hist ty : sharp && show = false -> funfold d show hist (SPtr ty None) (FLeaf ty (bs "<nil>")) hist
  | f_nil_typed d show hist ty : sharp && show = true -> funfold d show hist (SPtr ty None) (FLeaf ty (bs "<nil>")) (EVisit d :: hist)
  | f_nil d show hist ty p l ty' hist' : chain h d (EVisit d :: hist) (SPtr ty (Some p)) l (CNil ty') hist' ->
      funfold d show hist (SPtr ty (Some p)) (FPtr (List.length l) ty' l FNil) hist'
  | f_shown d show hist ty p l ty' hist' : chain h d (EVisit d :: hist) (SPtr ty (Some p)) l (CShown ty') hist' ->
      funfold d show hist (SPtr ty (Some p)) (FPtr (pred (List.length l)) ty' l FShown) hist'
  | f_value d show hist ty p l w hist1 t hist2 : chain h d (EVisit d :: hist) (SPtr ty (Some p)) l (CValue w) hist1 -> funfold d false hist1 w t hist2 ->
      funfold d show hist (SPtr ty (Some p)) (FPtr (List.length l) (typeName w) l (FValue t)) hist2
  | f_says d show hist v m : isPtr v = false -> says method cs v m true -> funfold d show hist v (FLeaf (typeName v) m) hist
  (* strings as they are *)
  | f_leaf d show hist v m text : isPtr v = false -> says method cs v m false -> leafText decimal (fun s => s) v text -> funfold d show hist v (FLeaf (typeName v) (m ++ text)) hist
  | f_max d show hist v m k l : says method cs v m false -> fparts h v k l -> tooDeep cs (S d) = true -> funfold d show hist v (FMax k (typeName v) m) hist
  | f_block d show hist v m k l ts hist' : says method cs v m false -> fparts h v k l -> tooDeep cs (S d) = false -> funfoldParts (S d) k hist l ts hist' ->
      funfold d show hist v (FBlock k (typeName v) m ts) hist'
  with funfoldParts : nat -> fkind -> list event -> list (plabel * option sval) -> list (flabel * (bool * ftree)) -> list event -> Prop :=
  | fu_nil d k hist : funfoldParts d k hist [] [] hist
  | fu_cons d k hist p v l lab t ts hist1 hist2 hist3 : funfoldLabel d hist p lab hist1 -> funfold d (showOf k v) hist1 (outOf v) t hist2 -> funfoldParts d k hist2 l ts hist3 ->
      funfoldParts d k hist ((p, Some v) :: l) ((lab, (showOf k v, t)) :: ts) hist3
  | fu_invalid d k hist p l lab ts hist1 hist3 : funfoldLabel d hist p lab hist1 -> funfoldParts d k hist1 l ts hist3 ->
      funfoldParts d k hist ((p, None) :: l) ((lab, (false, FInvalid)) :: ts) hist3
  with funfoldLabel : nat -> list event -> plabel -> flabel -> list event -> Prop :=
  | fl_none d hist : funfoldLabel d hist PNone FNone hist
  | fl_name d hist n : funfoldLabel d hist (PName n) (FName n) hist
  | fl_key d hist k t hist' : funfold d (isIface k) hist (outOf k) t hist' -> funfoldLabel d hist (PKey k) (FKey (isIface k) t) hist'.

  Definition ftype (show : bool) (ty : bytes) : bytes := if sharp && show then bs "(" ++ ty ++ bs ")" else [].
  Definition opening (k : fkind) : bytes := match k with KList => bs "[" | KMap => bs "map[" | KStruct => bs "{" end.
  Definition closing (k : fkind) : bytes := match k with KList => bs "]" | KMap => bs "]" | KStruct => bs "}" end.
  Definition starsIn (ty : bytes) : nat := count_occ Z.eq_dec ty 42.
  Fixpoint frender (show : bool) (t : ftree) : bytes :=
    match t with
    | FLeaf ty text => ftype show ty ++ text
    | FInvalid => bs "<invalid>"
    | FMax k ty said => ftype show ty ++ said ++ opening k ++ bs "<max>" ++ closing k
    | FBlock k ty said items =>
      ftype show ty ++ said ++ opening k ++
      joinSpace (map (fun x => match fst x with
                               | FNone => []
                               | FName n => if plus || sharp then n ++ bs ":" else []
                               | FKey s key => frender s key ++ bs ":"
                               end ++ frender (fst (snd x)) (snd (snd x))) items) ++ closing k
    (* with the type, otherwise only asterisks, and the asterisks that are left in the type if there is no value at the end *)
    | FPtr stars ty addrs to =>
      (if sharp && show then bs "(" ++ repeat 42 stars ++ ty ++ bs ")"
       else bs "<" ++ repeat 42 (stars + match to with FValue _ => 0 | _ => starsIn ty end) ++ bs ">") ++
      (if plus then bs "(" ++ arrows (map hexText addrs) ++ bs ")" else []) ++
      match to with FNil => bs "<nil>" | FShown => bs "<shown>" | FValue t => frender false t end
    end.
End Format.

(** Nothing in lists and maps that a type is missing after: pointers, and keys whose value is not found *)
Definition listed (h : heap) (v w : sval) : Prop :=
  match w with
  | SArr _ l => In v l
  | SSlice _ _ (Some r) => In v (elems h r)
  | SMap _ (Some r) => exists k x, In (k, x) (entries h r) /\ (v = k \/ x = Some v)
  | _ => False
  end.
Definition noPointersListed (h : heap) (v : sval) : Prop :=
  forall w, reach h v w -> (forall x, listed h x w -> isPtr x = false) /\ (forall ty r k, w = SMap ty (Some r) -> ~ In (k, None) (entries h r)).
