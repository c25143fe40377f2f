(** What a dump is to be: JSON in which every address shown is explained *)
From Verif Require Import Base JsonSpec JsonCompProofs DumpModel.
Open Scope Z_scope.
Open Scope list_scope.

(** [t] is the text of the JSON value [j], whatever follows it (no digit if it is a number) *)
Definition valueText (t : bytes) (j : json) : Prop := starts t /\ exists n, reads n t j.
(** A value that shows an address: somewhere in it is an object with the only member __ptr__ *)
Inductive shows : json -> bytes -> Prop :=
| shows_here s : shows (JObj [(bs "__ptr__", JStr s)]) s
| shows_arr l j s : In j l -> shows j s -> shows (JArr l) s
| shows_obj l k j s : In (k, j) l -> shows j s -> shows (JObj l) s.
(** Every address shown is nil or has an entry *)
Definition explained (m : amap) (j : json) : Prop := forall s, shows j s -> s = bs "0" \/ exists x, In (s, x) m.
(** An encoder, for the value at an address: it appends the text of a JSON value and adds entries which are texts of JSON values; all addresses in them are explained afterwards *)
Definition goodAt (e : amap -> bytes -> Z -> option (amap * bytes)) (ptr : Z) : Prop := forall m space m' out, e m space ptr = Some (m', out) -> exists t j added,
  out = space ++ t /\ valueText t j /\ m' = added ++ m /\ explained m' j /\
  forall k x, In (k, x) added -> Forall (fun b => 48 <= b <= 66) k /\ exists jx, valueText x jx /\ explained m' jx.
Definition goodEnc (e : amap -> bytes -> Z -> option (amap * bytes)) : Prop := forall ptr, goodAt e ptr.

(** No map has evacuated 10^19 buckets or more, wherever in memory there are the 48 bytes of an hmap *)
Definition fewEvacuated (byteAt : Z -> option Z) : Prop := forall p n, (forall i, 0 <= i < 48 -> byteAt (p + i) <> None) -> le byteAt 8 (p + 32) = Some n -> n < 10 ^ 19.

(** Buckets follow one another: [chain n p]: from the bucket at [p] there are [n] more *)
Inductive chain (next : Z -> option Z) : nat -> Z -> Prop :=
| chain_end p : next p = Some 0 -> chain next 0 p
| chain_more n p q : next p = Some q -> q <> 0 -> chain next n q -> chain next (S n) p.

(** A Go struct: where each field starts, for fields of the given sizes and alignments, and where it ends (before padding at the end) *)
Fixpoint fieldOffsets (at_ : Z) (fs : list (Z * Z)) : list Z * Z :=
  match fs with
  | [] => ([], at_)
  | (size, align) :: fs => let o := (at_ + align - 1) / align * align in let '(l, e) := fieldOffsets (o + size) fs in (o :: l, e)
  end.
(** The bucket of a Go map whose keys and elements are kept in it: tophash [8]uint8, keys [8]K, elems [8]V, overflow *bmap *)
Definition goBucket (keySize keyAlign elemSize elemAlign : Z) : list (Z * Z) := [(8, 1); (8 * keySize, keyAlign); (8 * elemSize, elemAlign); (8, 8)].

(** Types from which no endless chain of types leads on; fields that are left out count for nothing *)
Definition uses (types : nat -> ty) (t u : nat) : Prop :=
  match types t with
  | TString | TLeaf => False
  | TPtr v | TSlice v | TArray _ v => u = v
  | TMap k v => u = k \/ u = v
  | TStruct fs => exists name offset, name <> [] /\ In (name, offset, u) fs
  end.
Inductive finite (types : nat -> ty) : nat -> Prop := finite_intro t : (forall u, uses types t u -> finite types u) -> finite types t.
