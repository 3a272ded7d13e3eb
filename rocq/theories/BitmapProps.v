(** C09: the bitmap file behaves like a set of leaf numbers with commit and rollback. *)
From Verif Require Import Base Bytes MMRIndexSpec MMRIndexModel MMRHashModel MMRHashSpec MMRHashProps FileModel BitmapModel BitmapSpec BitmapProofs.
Local Open Scope N_scope.

(** The model call for each abstract operation. *)
Definition bcall (o : setop) : bop :=
  match o with
  | Insert i => BSet i | Delete i => BUnset i | Rewind n add => BRewind n add
  | Save => BCommit | Restore => BRollback
  | InsertPositions l => BSetRoaring l | DeletePositions l => BUnsetRoaring l
  end.
Lemma bcall_eq l : map bcall l = map bop_of l.
Proof. apply map_ext. intros []; reflexivity. Qed.

(** For every starting file and every sequence of operations: membership queries answer exactly
    the abstract set, and the bits on disk are exactly the last saved set. *)
Theorem C09_refines_sets f ops :
  Forall setop_ok ops ->
  let start := fun i => bit_of f i = true in
  let b := fold_left BF_step (map bcall ops) (BF_Load f) in
  let s := set_run (mkB start start) ops in
  forall i, (IsSet b i = true <-> now s i) /\ (bit_of (bdisk b) i = true <-> saved s i).
Proof.
  intros Hok. cbv zeta. intros i. rewrite bcall_eq.
  destruct (brun_ok ops _ _ (binv_load f) Hok) as [W A B]. split; auto.
Qed.

(** Reopening the file after any sequence shows exactly the last saved set. *)
Theorem C09_reload f ops :
  Forall setop_ok ops ->
  let start := fun i => bit_of f i = true in
  let b := fold_left BF_step (map bcall ops) (BF_Load f) in
  let s := set_run (mkB start start) ops in
  forall i, IsSet (BF_Load (bdisk b)) i = true <-> saved s i.
Proof.
  intros Hok start b s i. rewrite bit_of_disk by reflexivity. apply (C09_refines_sets f ops Hok i).
Qed.

(** Conversion to a Roaring bitmap yields exactly the 1-based MMR positions of the members, as
    long as the bitmap covers at most 2^31 leaves (Roaring positions are 32-bit). *)
Theorem C09_to_roaring f ops x :
  Forall setop_ok ops ->
  let start := fun i => bit_of f i = true in
  let b := fold_left BF_step (map bcall ops) (BF_Load f) in
  let s := set_run (mkB start start) ops in
  GetNumBytes b <= 2 ^ 28 ->
  (In x (ToRoaring b) <-> exists i, now s i /\ 1 <= x /\ leaf_at i (x - 1)).
Proof.
  intros Hok start b s Hn.
  pose proof (brun_ok ops _ _ (binv_load f) Hok) as [W A B]. rewrite <- bcall_eq in W, A. fold b in W, A. fold s in A.
  rewrite (ToRoaring_ok b x W Hn). split.
  - intros (i & Hi & _ & H1 & H2). exists i. repeat split; auto. apply A, Hi.
  - intros (i & Hi & H1 & H2). exists i. apply A in Hi. repeat split; auto.
    destruct (N.lt_ge_cases i 2147483648) as [|G]; [assumption|exfalso].
    rewrite (beyond_bits b i W) in Hi; [discriminate|]. change (2 ^ 28) with 268435456 in Hn. lia.
Qed.

(** The commitment that block headers carry for this set (LeafSet::Root): it exists, it is the
    MMR root of the 1024-bit chunks, two files holding the same set have the same root, ... *)
Theorem C09_root_of_set H f1 f2 ops1 ops2 n :
  (forall m, H m <> repeat 0 32) -> is_bytes f1 -> is_bytes f2 -> n + 1023 < W64 ->
  let b1 := fold_left BF_step (map bcall ops1) (BF_Load f1) in
  let b2 := fold_left BF_step (map bcall ops2) (BF_Load f2) in
  (forall i, IsSet b1 i = IsSet b2 i) ->
  exists ts, is_mmr ts (leafset_chunks b1 n) /\
    LeafSet_Root H b1 n = Ret (mmr_root H ts) /\ LeafSet_Root H b2 n = Ret (mmr_root H ts).
Proof.
  intros HZ B1 B2 Hn b1 b2 E.
  destruct (leafset_root_defined H b1 n HZ Hn) as (ts & M & R). exists ts. split; [exact M|]. split; [exact R|].
  unfold LeafSet_Root in *. rewrite <- (same_set_same_chunks b1 b2 n); [exact R| | |exact E].
  - apply byte_ok_run, byte_ok_load, B1.
  - apply byte_ok_run, byte_ok_load, B2.
Qed.

(** ... and two files with the same root agree on every leaf below the leaf count, unless the
    hash function has a collision. *)
Theorem C09_root_binds_set H b1 b2 n r :
  (forall m, length (H m) = 32%nat) -> (forall m, H m <> repeat 0 32) -> n + 1023 < W64 ->
  LeafSet_Root H b1 n = Ret r -> LeafSet_Root H b2 n = Ret r ->
  (forall i, i < n -> IsSet b1 i = IsSet b2 i) \/ exists m m', m <> m' /\ H m = H m'.
Proof. apply leafset_root_binds. Qed.

(** [operator[]] is not the membership query: it answers [false] for members too. *)
Theorem C09_operator_index_refuted : exists b i, IsSet b i = true /\ BF_operator_index b i = false.
Proof. exists (BF_Set (BF_Load []) 5), 5. split; vm_compute; reflexivity. Qed.

Example C09_example :
  let ops := [Insert 3; Insert 17; Save; Delete 3; Insert 9; Rewind 12 [2]; InsertPositions [1; 3; 8]] in
  let b := fold_left BF_step (map bcall ops) (BF_Load [128]) in
  Forall setop_ok ops /\ GetNumBytes b <= 2 ^ 28 /\
  filter (IsSet b) (N_range 0 40) = [0; 2; 4; 9] /\ bdisk b = [144; 0; 64] /\
  ToRoaring b = [1; 4; 8; 17].
Proof.
  cbv zeta. split; [repeat constructor; vm_compute; (discriminate || reflexivity)|]. split; [vm_compute; discriminate|].
  repeat split; vm_compute; reflexivity.
Qed.
Example C09_root_example :
  exists r, LeafSet_Root toy_hash (BF_Load [144; 0; 64]) 20 = Ret r /\ length r = 32%nat.
Proof. eexists. split; vm_compute; reflexivity. Qed.

Print Assumptions C09_refines_sets.
Print Assumptions C09_reload.
Print Assumptions C09_to_roaring.
Print Assumptions C09_root_of_set.
Print Assumptions C09_root_binds_set.
Print Assumptions C09_operator_index_refuted.
