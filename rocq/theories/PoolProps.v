(** Claim C29: may a sink keep the bytes of a log record? *)
From Verif Require Import Base PoolModel PoolSpec PoolProofs.

(** With a sink that copies (the async writers), the reader sees the records in the order they were written, each with
    the bytes it had, however the buffers are reused. *)
Theorem C29_copying_sink : forall evs s, run KeepsCopy init evs = Some s -> prefix (seen evs) (logged evs).
Proof.
  intros evs s R. exists (map (content (arrays s)) (kept s)). apply (i_log KeepsCopy evs s). apply inv_run; [left; reflexivity | exact R].
Qed.
(** Everything written is seen once the reader has emptied the queue. *)
Theorem C29_copying_sink_all : forall evs s, run KeepsCopy init evs = Some s -> kept s = [] -> seen evs = logged evs.
Proof.
  intros evs s R K. rewrite (i_log KeepsCopy evs s), K; [symmetry; apply app_nil_r|]. apply inv_run; [left; reflexivity | exact R].
Qed.

(** The full claim for the witch event queue. *)
Definition C29_full : Prop := forall evs s, run KeepsSlice init evs = Some s -> prefix (seen evs) (logged evs).
(** It holds as long as the pool never hands out a buffer again. *)
Theorem C29_witch_partial : forall evs s, (forall h i, ~ In (GetPooled h i) evs) -> run KeepsSlice init evs = Some s -> prefix (seen evs) (logged evs).
Proof.
  intros evs s N R. exists (map (content (arrays s)) (kept s)). apply (i_log KeepsSlice evs s). apply inv_run; [right; exact N | exact R].
Qed.
(** Two records one after the other: the reader sees the second one's bytes twice (the first cut to its old length). *)
Theorem C29_witch_refuted : exists evs s, run KeepsSlice init evs = Some s /\
  logged evs = [bs "first record"; bs "SECOND"] /\ seen evs = [bs "SECONDrecord"; bs "SECOND"].
Proof.
  exists [GetNew 0; Format 0 (bs "first record") 0; Write 0; Put 0; GetPooled 1 0; Format 1 (bs "SECOND") 0; Write 1; Put 1;
          Read (bs "SECONDrecord"); Read (bs "SECOND")].
  eexists. split; [vm_compute; reflexivity|]. split; vm_compute; reflexivity.
Qed.
Theorem C29_full_refuted : ~ C29_full.
Proof.
  intro H. destruct C29_witch_refuted as [evs [s [R [L S0]]]]. destruct (H evs s R) as [r E]. rewrite L, S0 in E. discriminate E.
Qed.
(** Any record still in the queue is at risk: when its buffer is back in the pool, the next Handle may overwrite it
    with any bytes of the same length. *)
Theorem C29_witch_overwrites_refuted : forall evs s h i rec buf a n,
  run KeepsSlice init evs = Some s -> hs s h = HFresh -> nth_error (pool s) i = Some buf -> kept s = [(a, n)] -> fst buf = a ->
  List.length rec = n -> (n <= List.length (nth a (arrays s) []))%nat -> (a < List.length (arrays s))%nat ->
  exists s', run KeepsSlice s [GetPooled h i; Format h rec 0; Read rec] = Some s'.
Proof.
  intros evs s h i rec [a' n'] a n R F P K E L C A. cbn [fst] in E. subst a'. cbn [run step]. rewrite F, P. cbn [hs kept arrays pool]. rewrite upd_same.
  unfold appendTo. rewrite L. rewrite (proj2 (Nat.leb_le n _)) by exact C. cbn [arrays kept hs pool]. rewrite K. unfold content. cbn [fst snd].
  rewrite put_same by exact A. rewrite <- L, firstn_exact, bytes_eqb_refl. eexists. reflexivity.
Qed.
Print Assumptions C29_copying_sink.
Print Assumptions C29_copying_sink_all.
Print Assumptions C29_witch_partial.
Print Assumptions C29_witch_refuted.
Print Assumptions C29_full_refuted.
Print Assumptions C29_witch_overwrites_refuted.

Example C29_example : exists s, run KeepsCopy init [GetNew 0; Format 0 (bs "first record") 0; Write 0; Put 0; GetPooled 1 0; Format 1 (bs "SECOND") 0; Write 1; Put 1;
          Read (bs "first record"); Read (bs "SECOND")] = Some s /\ kept s = [].
Proof. eexists. split; [vm_compute; reflexivity | reflexivity]. Qed.
Example C29_example_grow : exists s, run KeepsSlice init [GetNew 0; Format 0 (repeat 65 200) 30; Write 0; GetNew 1; Format 1 (bs "b") 0; Put 0; Write 1; Read (repeat 65 200)] = Some s.
Proof. eexists. vm_compute. reflexivity. Qed.
Example C29_example_pooled : exists s, run KeepsSlice init [GetNew 0; Format 0 (bs "first record") 0; Write 0; Put 0] = Some s /\ hs s 1 = HFresh /\
  nth_error (pool s) 0 = Some (0, 12)%nat /\ kept s = [(0, 12)%nat] /\ List.length (nth 0 (arrays s) []) = 128%nat.
Proof. eexists. split; [vm_compute; reflexivity|]. repeat split. Qed.
