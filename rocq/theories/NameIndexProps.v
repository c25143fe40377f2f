(** Property C127: the files that NameByIndex lists. *)
From Verif Require Import Base NameIndexModel NameIndexSpec NameIndexProofs.
Open Scope Z_scope.
Open Scope list_scope.

(** * C127: NameByIndex.ListFiles *)

(** For a pattern with one %d, exactly the accepted names are listed, in the order of the directory; a directory that does not exist is empty *)
Theorem C127_list : forall join pre suf (P : bytes -> bool), Forall plain pre -> Forall plain suf -> (forall n, P n = true <-> exists v, accepted pre suf v n) ->
  (forall names, IndexListFiles join (pre ++ bs "%d" ++ suf) (DNames names) = Some (map join (filter P names))) /\
  IndexListFiles join (pre ++ bs "%d" ++ suf) DNotExist = Some [] /\
  IndexListFiles join (pre ++ bs "%d" ++ suf) DOpenError = None /\ IndexListFiles join (pre ++ bs "%d" ++ suf) DReadError = None.
Proof.
  intros join pre suf P Q S H. split; [|auto]. intros names. cbn [IndexListFiles]. f_equal.
  assert (G : forall names paths, listLoop join (pre ++ bs "%d" ++ suf) names paths = paths ++ map join (filter P names)).
  { induction names0 as [|n names0 IH]; intros paths; cbn [listLoop filter map]; [now rewrite app_nil_r|].
    destruct (P n) eqn:E.
    - apply H in E. destruct E as [v E]. rewrite (proj2 (sscanf_iff pre suf n (1%nat, v) Q S)) by auto. cbn [Nat.eqb negb map]. rewrite IH, <- app_assoc. reflexivity.
    - destruct (sscanf (pre ++ bs "%d" ++ suf) n 0 0) as [r|] eqn:X; [|apply IH].
      apply sscanf_iff in X; auto. destruct X as [_ X]. enough (P n = true) by congruence. apply H. eauto. }
  apply G.
Qed.
Print Assumptions C127_list.
(** Whether a name is accepted can be decided, and the index is the only one *)
Theorem C127_decided : forall pre suf, Forall plain pre -> Forall plain suf ->
  (exists P : bytes -> bool, forall n, P n = true <-> exists v, accepted pre suf v n) /\ forall v v' n, accepted pre suf v n -> accepted pre suf v' n -> v = v'.
Proof.
  intros pre suf Q S. split.
  - exists (fun n => match sscanf (pre ++ bs "%d" ++ suf) n 0 0 with Some _ => true | None => false end). intros n. destruct sscanf as [r|] eqn:X.
    + apply (sscanf_iff pre suf n r Q S) in X. destruct X as [_ X]. split; [intros _; exists (snd r); exact X|reflexivity].
    + split; [discriminate|]. intros [v A]. rewrite (proj2 (sscanf_iff pre suf n (1%nat, v) Q S)) in X by auto. discriminate.
  - intros v v' n A B. exact (accepted_fun pre suf n v v' Q S A B).
Qed.
Print Assumptions C127_decided.

(** The file of every index is accepted, if the text behind it does not begin with a digit *)
Theorem C127_partial : forall pre suf v name, index_name pre suf v name -> int64 v -> (forall c t, suf = c :: t -> ~ digit c) -> accepted pre suf v name.
Proof.
  intros pre suf v name H R N. destruct H as [ds v D DE _|ds v DE D _].
  - exists [], [], ds, v, []. rewrite app_nil_r. repeat split; auto; apply R.
  - exists [], [45], ds, v, []. rewrite app_nil_r. repeat split; auto; apply R.
Qed.
Print Assumptions C127_partial.
Lemma plain_bs : forall s, Forall (fun c => c <> 37 /\ 32 < c) s -> Forall plain s.
Proof. intros s H. eapply Forall_impl; [|exact H]. intros c [A B]. unfold plain, blank. cbn [In]. lia. Qed.
Lemma den1 : forall d, digit d -> denotes [d] (d - 48).
Proof. intros d D. replace (d - 48) with (10 * 0 + (d - 48)) by lia. apply (den_snoc [] d 0); [constructor|exact D]. Qed.
Lemma den12 : denotes (bs "12") 12.
Proof. apply (den_snoc [49] 50 1); [apply (den1 49)|]; unfold digit; lia. Qed.
Example C127_example : Forall plain (bs "test-") /\ Forall plain (bs ".log") /\ index_name (bs "test-") (bs ".log") 12 (bs "test-12.log") /\ int64 12 /\
  (forall c t, bs ".log" = c :: t -> ~ digit c) /\
  IndexListFiles (fun n => bs "/tmp/" ++ n) (bs "test-%d.log") (DNames [bs "test-12.log"; bs "test-a.log"; bs "test-2.log"; bs "test-99999999999999999999.log"]) =
    Some [bs "/tmp/test-12.log"; bs "/tmp/test-2.log"].
Proof.
  split; [apply plain_bs; cbv; repeat constructor; discriminate|]. split; [apply plain_bs; cbv; repeat constructor; discriminate|].
  split; [apply (in_pos (bs "test-") (bs ".log") (bs "12") 12); [discriminate|exact den12|left; discriminate]|].
  split; [unfold int64; lia|]. split; [|vm_compute; reflexivity]. intros c t [= <- _]. unfold digit. lia.
Qed.

(** Any text behind the name, zeros and a plus before the index, blanks: also listed, with the same index *)
Theorem C127_more_refuted : forall pre suf v ds sp zeros rest, ds <> [] -> denotes ds v -> int64 v -> Forall blank sp -> Forall (eq 48) zeros ->
  (forall c t, suf ++ rest = c :: t -> ~ digit c) ->
  accepted pre suf v (pre ++ sp ++ zeros ++ ds ++ suf ++ rest) /\ accepted pre suf v (pre ++ sp ++ [43] ++ zeros ++ ds ++ suf ++ rest).
Proof.
  intros pre suf v ds sp zeros rest D DE R B Zs N.
  assert (Z : denotes (zeros ++ ds) v).
  { assert (Z0 : denotes zeros 0).
    { clear - Zs. induction zeros as [|z zeros IH] using rev_ind; [constructor|]. apply Forall_app in Zs. destruct Zs as [A C]. inversion C; subst.
      apply (den_snoc zeros 48 0); [auto|]. unfold digit. lia. }
    clear - DE Z0. induction DE as [|ds d v H IH X]; [now rewrite app_nil_r|]. rewrite app_assoc. now apply den_snoc. }
  assert (P : zeros ++ ds <> []) by (intros E; apply app_eq_nil in E; tauto).
  split; [exists sp, [], (zeros ++ ds), v, rest|exists sp, [43], (zeros ++ ds), v, rest]; (split; [now rewrite <- !app_assoc|]); repeat split; auto; apply R.
Qed.
Print Assumptions C127_more_refuted.
Example C127_more_example : accepted (bs "test-") (bs ".log") 12 (bs "test- +0012.log.bak~") /\
  IndexListFiles (fun n => n) (bs "test-%d.log") (DNames [bs "test- +0012.log.bak~"; bs "test-12.logs"]) = Some [bs "test- +0012.log.bak~"; bs "test-12.logs"].
Proof.
  split; [|vm_compute; reflexivity].
  apply (C127_more_refuted (bs "test-") (bs ".log") 12 (bs "12") [32] [48; 48] (bs ".bak~")); [discriminate|exact den12|unfold int64; lia|constructor; [unfold blank; cbn; auto 6|constructor]|repeat constructor|].
  intros c t [= <- _]. unfold digit. lia.
Qed.
(** If the text behind the index begins with a digit, no file is listed *)
Theorem C127_digit_refuted : forall pre suf d, Forall plain pre -> Forall plain (d :: suf) -> digit d -> forall join names,
  IndexListFiles join (pre ++ bs "%d" ++ d :: suf) (DNames names) = Some [].
Proof.
  intros pre suf d Q S D join names. assert (H : forall n, false = true <-> exists v, accepted pre (d :: suf) v n).
  2: { rewrite (proj1 (C127_list join pre (d :: suf) (fun _ => false) Q S H) names). f_equal. clear. induction names; auto. }
  intros n. split; [discriminate|]. intros (v & sp & sg & ds & u & rest & _ & _ & _ & _ & _ & _ & N). exfalso. eapply N; [reflexivity|exact D].
Qed.
Print Assumptions C127_digit_refuted.
Example C127_digit_example : index_name (bs "a") (bs "0.log") 12 (bs "a120.log") /\ IndexListFiles (fun n => n) (bs "a%d0.log") (DNames [bs "a120.log"]) = Some [].
Proof. split; [apply (in_pos (bs "a") (bs "0.log") (bs "12") 12); [discriminate|exact den12|left; discriminate]|vm_compute; reflexivity]. Qed.
Definition C127_full : Prop := forall join pre suf names l, Forall plain pre -> Forall plain suf -> IndexListFiles join (pre ++ bs "%d" ++ suf) (DNames names) = Some l ->
  forall p, In p l <-> exists n v, In n names /\ p = join n /\ index_name pre suf v n /\ int64 v.
Theorem C127_full_refuted : ~ C127_full.
Proof.
  intros F.
  assert (Pa : Forall plain (bs "a")) by (apply plain_bs; cbv; repeat constructor; discriminate).
  assert (Pb : Forall plain (bs "0.log")) by (apply plain_bs; cbv; repeat constructor; discriminate).
  destruct C127_digit_example as [I E]. apply (proj2 (F (fun n => n) (bs "a") (bs "0.log") [bs "a120.log"] [] Pa Pb E (bs "a120.log"))).
  exists (bs "a120.log"), 12. split; [now left|]. split; [reflexivity|]. split; [exact I|]. unfold int64. lia.
Qed.
Print Assumptions C127_full_refuted.
