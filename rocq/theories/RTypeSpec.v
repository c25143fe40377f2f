(** What the Types of reflect2 are to be *)
From Verif Require Import Base RTypeModel.
Open Scope Z_scope.
Open Scope list_scope.

(** The implementation for a type of kind [k] with [n] methods, with unsafe and with safe operations *)
Inductive rightImpl : bool -> Z -> Z -> impl -> Prop :=
| ri_struct n : rightImpl false 25 n UStruct
| ri_array n : rightImpl false 17 n UArray
| ri_slice n : rightImpl false 23 n USlice
| ri_map n : rightImpl false 21 n UMap
| ri_ptr n k : In k [18; 19; 22] -> rightImpl false k n UPtr
| ri_eface : rightImpl false 20 0 UEFace
| ri_iface n : n <> 0 -> rightImpl false 20 n UIFace
| ri_other n k : ~ In k [17; 18; 19; 20; 21; 22; 23; 25] -> rightImpl false k n UType
| rs_struct n : rightImpl true 25 n SafeStruct
| rs_list n k : In k [17; 23] -> rightImpl true k n SafeSlice
| rs_map n k : In k [18; 19; 20; 21; 22] -> rightImpl true k n SafeMap
| rs_other n k : ~ In k [17; 18; 19; 20; 21; 22; 23; 25] -> rightImpl true k n SafeType.
(** The last of a list with a property *)
Definition lastWith {A} (P : A -> Prop) (l : list A) (x : A) : Prop := exists l1 l2, l = l1 ++ x :: l2 /\ P x /\ forall y, In y l2 -> ~ P y.
