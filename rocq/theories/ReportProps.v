(** C67: the report of a failed check. *)
From Verif Require Import Base ReportModel ReportSpec.

Lemma split_ne : forall c, split c <> [].
Proof. destruct c as [|c l]; [discriminate|]. cbn. destruct (c =? 10); [discriminate|]. destruct (split l); discriminate. Qed.
Lemma split_app : forall l, ~ In 10 l -> forall c, split (l ++ c) = match split c with x :: r => (l ++ x) :: r | [] => [] end.
Proof.
  induction l as [|x l IH]; intros N c; cbn [app]; [destruct (split c) eqn:E; [destruct (split_ne c E)|reflexivity]|]. cbn [split].
  destruct (Z.eqb_spec x 10) as [->|_]; [destruct N; left; reflexivity|]. rewrite IH by (intro; apply N; right; assumption).
  destruct (split c) as [|y r] eqn:E; [destruct (split_ne c E)|reflexivity].
Qed.
Lemma split_lines : forall c ls, lines_of c ls -> split c = ls.
Proof.
  intros c ls (N & -> & F). induction ls as [|l ls IH]; [congruence|]. inversion F as [|? ? F1 F2]; subst. destruct ls as [|l' ls].
  - cbn [unlines]. rewrite <- (app_nil_r l) at 1. rewrite split_app by exact F1. cbn. now rewrite app_nil_r.
  - change (unlines (l :: l' :: ls)) with (l ++ [10] ++ unlines (l' :: ls)). rewrite split_app by exact F1. change (split ([10] ++ unlines (l' :: ls))) with ([] :: split (unlines (l' :: ls))). rewrite IH by (discriminate || assumption). now rewrite app_nil_r.
Qed.
Lemma balance_app : forall a b, balance (a ++ b) = balance a + balance b.
Proof. induction a as [|x a IH]; intro b; [reflexivity|]. cbn [app balance]. rewrite IH. lia. Qed.
Lemma count_balance : forall l, count 40 l - count 41 l = balance l.
Proof.
  unfold count. induction l as [|c l IH]; [reflexivity|]. cbn [filter balance].
  destruct (Z.eqb_spec 40 c), (Z.eqb_spec 41 c), (Z.eqb_spec c 40), (Z.eqb_spec c 41); try congruence; cbn [List.length]; rewrite ?Nat2Z.inj_succ; lia.
Qed.
Lemma balance_unlines : forall l ls, balance (unlines (l :: ls)) = balance l + balance (unlines ls).
Proof. intros l [|l' ls]; [cbn; lia|]. change (unlines (l :: l' :: ls)) with (l ++ [10] ++ unlines (l' :: ls)). rewrite !balance_app. change (balance [10]) with 0. lia. Qed.
Lemma firstn_S : forall (x : bytes) l n, firstn (S n) (x :: l) = x :: firstn n l.
Proof. reflexivity. Qed.

Lemma collect_fewest : forall trim rest o n, (1 <= n <= List.length rest)%nat -> o + balance (unlines (firstn n rest)) = 0 ->
  (forall j, (1 <= j < n)%nat -> o + balance (unlines (firstn j rest)) <> 0) -> collect trim rest o = List.concat (map trim (firstn n rest)).
Proof.
  intros trim rest. induction rest as [|l rest IH]; intros o n N B F; [cbn in N; lia|]. destruct n as [|n]; [lia|]. cbn [collect]. rewrite firstn_S. cbn [map List.concat]. f_equal.
  replace (o + count 40 l - count 41 l) with (o + balance l) by (rewrite <- count_balance; lia).
  rewrite firstn_S, balance_unlines in B. destruct n as [|n].
  - cbn in B. rewrite (proj2 (Z.eqb_eq (o + balance l) 0)) by lia. reflexivity.
  - assert (F1 := F 1%nat ltac:(lia)). cbn in F1. rewrite (proj2 (Z.eqb_neq (o + balance l) 0)) by lia. apply (IH _ (S n)).
    + cbn in N. lia.
    + lia.
    + intros j J. specialize (F (S j) ltac:(lia)). rewrite firstn_S, balance_unlines in F. lia.
Qed.
Lemma collect_all : forall trim rest o, (forall j, (1 <= j <= List.length rest)%nat -> o + balance (unlines (firstn j rest)) <> 0) -> collect trim rest o = List.concat (map trim rest).
Proof.
  intros trim rest. induction rest as [|l rest IH]; intros o F; [reflexivity|]. cbn [collect map List.concat]. f_equal.
  replace (o + count 40 l - count 41 l) with (o + balance l) by (rewrite <- count_balance; lia).
  assert (F1 := F 1%nat ltac:(cbn; lia)). cbn in F1. rewrite (proj2 (Z.eqb_neq (o + balance l) 0)) by lia. apply IH. intros j J. specialize (F (S j) ltac:(cbn; lia)). rewrite firstn_S, balance_unlines in F. lia.
Qed.

(** A file that cannot be read or has no such line: no line is shown. *)
Theorem C67_unknown : forall trim line, ExtractFailedLines trim None line = bs "check failed" /\
  forall content ls, lines_of content ls -> line < 1 \/ line > Z.of_nat (List.length ls) -> ExtractFailedLines trim (Some content) line = bs "check failed".
Proof.
  intros trim line. split; [reflexivity|]. intros content ls L H. unfold ExtractFailedLines. rewrite (split_lines _ _ L).
  destruct (Z.ltb_spec (line - 1) 0); [reflexivity|]. cbn [orb]. rewrite Z.geb_leb. rewrite (proj2 (Z.leb_le _ _)) by lia. reflexivity.
Qed.
Example C67_unknown_example : ExtractFailedLines (fun l => l) (Some (bs "a()")) 2 = bs "check failed" /\ ExtractFailedLines (fun l => l) (Some []) 0 = bs "check failed" /\ lines_of (bs "a()") [bs "a()"].
Proof. vm_compute. repeat split; [discriminate|]. constructor; [intros [H|[H|[H|[]]]]; discriminate H|constructor]. Qed.

(** The fewest lines from the given one on whose parentheses balance are shown, trimmed, without separators; and all lines to the end of the file if there are none. *)
Theorem C67_report : forall trim content ls line, lines_of content ls -> 1 <= line <= Z.of_nat (List.length ls) ->
  let rest := skipn (Z.to_nat (line - 1)) ls in
  (forall n, fewest balance rest n -> ExtractFailedLines trim (Some content) line = bs "failed: " ++ List.concat (map trim (firstn n rest))) /\
  ((forall n, ~ fewest balance rest n) -> ExtractFailedLines trim (Some content) line = bs "failed: " ++ List.concat (map trim rest)).
Proof.
  intros trim content ls line L H rest. unfold ExtractFailedLines. rewrite (split_lines _ _ L). rewrite (proj2 (Z.ltb_ge _ _)) by lia. cbn [orb]. rewrite Z.geb_leb, (proj2 (Z.leb_gt _ _)) by lia. fold rest. split.
  - intros n (N & B & F). f_equal. apply collect_fewest; auto.
  - intro No. f_equal. apply collect_all. intro j. induction j as [j IH] using lt_wf_ind. intros J B. apply (No j). split; [exact J|]. split; [exact B|]. intros i I. specialize (IH i ltac:(lia) ltac:(lia)). exact IH.
Qed.
Definition source : bytes := unlines [bs "func f() {"; bs "must.Equal(1,"; bs "g(x))"; bs "}"].
Example C67_report_example : lines_of source [bs "func f() {"; bs "must.Equal(1,"; bs "g(x))"; bs "}"] /\
  fewest balance (skipn 1 [bs "func f() {"; bs "must.Equal(1,"; bs "g(x))"; bs "}"]) 2 /\ ExtractFailedLines (fun l => l) (Some source) 2 = bs "failed: must.Equal(1,g(x))" /\
  ExtractFailedLines (fun l => l) (Some source) 3 = bs "failed: g(x))}".
Proof.
  split; [|split; [|split; vm_compute; reflexivity]].
  - split; [discriminate|]. split; [reflexivity|]. repeat constructor; vm_compute; intuition discriminate.
  - split; [cbn; lia|]. split; [vm_compute; reflexivity|]. intros j J. replace j with 1%nat by lia. vm_compute. discriminate.
Qed.

(** ** The lines of the call are shown: refuted for parentheses in literals and comments *)
Definition C67_full : Prop := forall trim content ls line n, lines_of content ls -> 1 <= line <= Z.of_nat (List.length ls) ->
  fewest (code_balance Code) (skipn (Z.to_nat (line - 1)) ls) n ->
  ExtractFailedLines trim (Some content) line = bs "failed: " ++ List.concat (map trim (firstn n (skipn (Z.to_nat (line - 1)) ls))).
Definition literal : list bytes := [bs "must.Equal('(', c)"; bs "g()"; bs "}"].
Definition smiley : list bytes := [bs "must.Equal(1, // :)"; bs "x)"].
(** A parenthesis in a literal: the following lines are shown, too; one in a comment: the second line of the call is not shown. *)
Theorem C67_refuted :
  fewest (code_balance Code) literal 1 /\ ExtractFailedLines (fun l => l) (Some (unlines literal)) 1 = bs "failed: must.Equal('(', c)g()}" /\
  fewest (code_balance Code) smiley 2 /\ ExtractFailedLines (fun l => l) (Some (unlines smiley)) 1 = bs "failed: must.Equal(1, // :)".
Proof.
  split; [split; [cbn; lia|split; [vm_compute; reflexivity|intros; lia]]|]. split; [vm_compute; reflexivity|]. split; [|vm_compute; reflexivity].
  split; [cbn; lia|]. split; [vm_compute; reflexivity|]. intros j J. replace j with 1%nat by lia. vm_compute. discriminate.
Qed.
Theorem C67_full_refuted : ~ C67_full.
Proof.
  intro H. destruct C67_refuted as (F & R & _). specialize (H (fun l => l) (unlines literal) literal 1 1%nat).
  assert (L : lines_of (unlines literal) literal) by (split; [discriminate|split; [reflexivity|repeat constructor; vm_compute; intuition discriminate]]).
  specialize (H L ltac:(cbn; lia) F). rewrite R in H. vm_compute in H. discriminate H.
Qed.
Lemma plain_balance : forall l, (forall c, In c l -> c <> 34 /\ c <> 39 /\ c <> 96 /\ c <> 47) -> code_balance Code l = balance l.
Proof.
  induction l as [|c l IH]; intro P; [reflexivity|]. cbn [code_balance balance]. rewrite IH by (intros x X; apply P; right; exact X). destruct (P c (or_introl eq_refl)) as (P1 & P2 & P3 & P4).
  rewrite (proj2 (Z.eqb_neq c 34) P1), (proj2 (Z.eqb_neq c 39) P2), (proj2 (Z.eqb_neq c 96) P3), (proj2 (Z.eqb_neq c 47) P4). cbn [orb]. destruct (c =? 40); [reflexivity|]. destruct (c =? 41); reflexivity.
Qed.
Lemma unlines_in : forall ls c, In c (unlines ls) -> c = 10 \/ exists l, In l ls /\ In c l.
Proof.
  induction ls as [|l ls IH]; intros c I; [destruct I|]. destruct ls as [|l' ls]; [right; exists l; split; [left; reflexivity|exact I]|]. change (unlines (l :: l' :: ls)) with (l ++ [10] ++ unlines (l' :: ls)) in I. apply in_app_iff in I as [I|I]; [right; exists l; split; [left; reflexivity|exact I]|].
  apply in_app_iff in I as [[I|[]]|I]; [left; congruence|]. destruct (IH c I) as [E|(x & X & Y)]; [left; exact E|]. right. exists x. split; [right; exact X|exact Y].
Qed.
Lemma firstn_in : forall n (l : list bytes) x, In x (firstn n l) -> In x l.
Proof. intros n l x I. rewrite <- (firstn_skipn n l). apply in_app_iff. left. exact I. Qed.
(** True for a call without quotes, backquotes and slashes. *)
Theorem C67_partial : forall trim content ls line n, lines_of content ls -> 1 <= line <= Z.of_nat (List.length ls) ->
  let rest := skipn (Z.to_nat (line - 1)) ls in
  fewest (code_balance Code) rest n -> (forall l c, In l (firstn n rest) -> In c l -> c <> 34 /\ c <> 39 /\ c <> 96 /\ c <> 47) ->
  ExtractFailedLines trim (Some content) line = bs "failed: " ++ List.concat (map trim (firstn n rest)).
Proof.
  intros trim content ls line n L H rest (N & B & F) P. apply (C67_report trim content ls line L H).
  assert (E : forall j, (j <= n)%nat -> code_balance Code (unlines (firstn j rest)) = balance (unlines (firstn j rest))).
  { intros j J. apply plain_balance. intros c I. apply unlines_in in I as [->|(l & I1 & I2)]; [lia|]. apply (P l c); [|exact I2]. replace j with (Nat.min j n) in I1 by lia. rewrite <- firstn_firstn in I1.
    apply firstn_in in I1. exact I1. }
  split; [exact N|]. split; [rewrite <- E by lia; exact B|]. intros j J. rewrite <- E by lia. apply F. exact J.
Qed.
Example C67_partial_example : ExtractFailedLines (fun l => l) (Some source) 2 = bs "failed: " ++ bs "must.Equal(1," ++ bs "g(x))" /\
  fewest (code_balance Code) [bs "must.Equal(1,"; bs "g(x))"; bs "}"] 2 /\ forall c, In c (bs "must.Equal(1,g(x))") -> c <> 34 /\ c <> 39 /\ c <> 96 /\ c <> 47.
Proof.
  split; [vm_compute; reflexivity|]. split; [split; [cbn; lia|split; [vm_compute; reflexivity|]]; intros j J; replace j with 1%nat by lia; vm_compute; discriminate|].
  intros c I. vm_compute in I. repeat (destruct I as [<-|I]; [lia|]). destruct I.
Qed.

Print Assumptions C67_unknown.
Print Assumptions C67_report.
Print Assumptions C67_refuted.
Print Assumptions C67_full_refuted.
Print Assumptions C67_partial.
