(** Property C07: reading, appending to, rooting and rewinding a pruned MMR gives what the unpruned MMR
    gives.  [F]/[D] are the full hash and data files, [keep gone 0 F] what pruning leaves of them; the
    prune list is loaded from the (1-based) pruned roots. *)
From Coq Require Import Sorted.
From Verif Require Import Base Bytes MMRIndexModel MMRIndexSpec MMRIndexProofs MMRHashModel MMRHashSpec MMRHashProofs FileModel BitmapModel
  PruneModel PruneSpec PruneProofs PruneProofs2 PruneProofs3.
Local Open Scope N_scope.

(** the records of gone leaves *)
Definition leaf_gone (gone : N -> bool) (l : N) : bool := gone (lidx_position (LeafIndex_At l)).

Theorem C07_compacted_iff_below_pruned_root : forall roots size p,
  valid_roots roots size -> size + 1 < W32 -> p + 1 < W32 ->
  (IsCompacted (PL_Load (map (fun r => r + 1) roots)) p = true <-> exists r, In r roots /\ descendant r p).
Proof.
  intros roots size p V S P. pose proof (valid_chain _ _ V S) as C. fold (one_based roots). rewrite is_compacted_spec by assumption.
  destruct C as (_ & B & _). rewrite Forall_forall in B.
  split; intros (r & I & Q); exists r; (split; [exact I|]); specialize (B r I); apply (descendant_interval r p ltac:(lia)); exact Q.
Qed.
Print Assumptions C07_compacted_iff_below_pruned_root.

(** a hash read is the unpruned hash, or refused exactly when that position is gone *)
Theorem C07_hash_read : forall roots gone (F : list bytes) p,
  valid_roots roots (nlen F) -> gone_iff roots gone -> nlen F + 1 < W32 -> p < nlen F ->
  P_GetHashAt (PL_Load (map (fun r => r + 1) roots)) (keep gone 0 F) p = if gone p then Throw else GetDataAt F p.
Proof.
  intros roots gone F p V G S P. pose proof (valid_chain _ _ V S) as C. apply get_hash; [exact C | apply gone_iff_chain; assumption | lia | exact P].
Qed.
Print Assumptions C07_hash_read.

(** the reported size counts the gone positions too *)
Theorem C07_size : forall roots gone (F : list bytes),
  valid_roots roots (nlen F) -> gone_iff roots gone -> nlen F + 1 < W32 ->
  P_GetSize (PL_Load (map (fun r => r + 1) roots)) (keep gone 0 F) = nlen F.
Proof.
  intros roots gone F V G S. pose proof (valid_chain _ _ V S) as C. apply get_size; [exact C | apply gone_iff_chain; assumption | apply V | lia].
Qed.
Print Assumptions C07_size.

(** a leaf's record is found where the unpruned data file has it *)
Theorem C07_leaf_read : forall roots gone size (D : list bytes) l,
  valid_roots roots size -> gone_iff roots gone -> size + 1 < W32 ->
  l < nlen D -> lidx_position (LeafIndex_At l) < size -> leaf_gone gone l = false -> l < 2 ^ 63 ->
  P_GetAt (PL_Load (map (fun r => r + 1) roots)) (keep (leaf_gone gone) 0 D) (LeafIndex_At l) = GetDataAt D l.
Proof.
  intros roots gone size D l V G S L P K M. pose proof (valid_chain _ _ V S) as C.
  apply P_GetAt_sim; [exact C | apply gone_iff_chain; assumption | exact L | exact M | unfold lpos; lia | exact K].
Qed.
Print Assumptions C07_leaf_read.

(** appending leaves to the pruned file gives the pruning of what appending to the full file gives *)
Theorem C07_append : forall (B2 : bytes -> bytes) roots gone (F F' : list bytes) xs,
  valid_roots roots (nlen F) -> gone_iff roots gone -> nlen F' + 1 < W32 -> AppendAll B2 F xs = Ret F' ->
  P_AppendAll B2 (PL_Load (map (fun r => r + 1) roots)) (keep gone 0 F) xs = Ret (keep gone 0 F').
Proof.
  intros B2 roots gone F F' xs V G S E.
  assert (L : nlen F <= nlen F').
  { revert F E V. induction xs as [|x xs IH]; intros F E V; [unfold AppendAll in E; cbn in E; assert (F = F') by congruence; subst; lia|].
    apply AppendAll_inv in E. destruct E as (F1 & E1 & E2). destruct (AddHashes_extends B2 F x F1 E1) as (e & EF).
    assert (X : nlen F1 <= nlen F').
    { apply IH; [exact E2|]. destruct V as (A & Bd & Cc). split; [exact A|]. split; [|exact Cc]. eapply Forall_impl; [|exact Bd]. cbn.
      intros r Hr. rewrite EF. unfold nlen in *. rewrite app_length. lia. }
    rewrite EF in X. unfold nlen in *. rewrite app_length in X. lia. }
  pose proof (valid_chain _ _ V ltac:(lia)) as C.
  apply P_AppendAll_sim with (F' := F'); [exact C | apply gone_iff_chain; assumption | apply V | exact S | exact E].
Qed.
Print Assumptions C07_append.

(** the root after the first [xs] leaves is the unpruned root *)
Theorem C07_root : forall (B2 : bytes -> bytes) roots gone (F : list bytes) xs ys,
  2 * N.of_nat (length (xs ++ ys)) < W64 -> AppendAll B2 [] (xs ++ ys) = Ret F ->
  let size := lidx_position (LeafIndex_At (N.of_nat (length xs))) in
  valid_roots roots size -> gone_iff roots gone -> size + 1 < W32 ->
  P_Root B2 (PL_Load (map (fun r => r + 1) roots)) (keep gone 0 F) size = Root B2 F size.
Proof.
  intros B2 roots gone F xs ys HL E size V G S. pose proof (valid_chain _ _ V S) as C.
  assert (HL1 : 2 * N.of_nat (length xs) < W64) by (rewrite app_length in HL; lia).
  destruct (append_correct B2 xs HL1) as (us & Hu & Eu). destruct (append_correct B2 (xs ++ ys) HL) as (ts & Ht & Et).
  destruct (mmr_prefix B2 ts xs us ys Hu Ht HL) as (ext & Ex).
  assert (SZ : size = fsize us) by exact (leaf_position_fsize us xs Hu HL1).
  assert (LE : size <= nlen F).
  { assert (X : F = mmr_hashes B2 0 us ++ ext) by congruence. rewrite X. unfold nlen. rewrite app_length.
    pose proof (mmr_hashes_length B2 0 us) as ML. lia. }
  destruct (forest 0 (heights us)) as [fs sz] eqn:Ef. destruct Hu as (Hp & Hd & Hx).
  assert (EZ : sz = size).
  { pose proof (forest_total 0 (heights us)) as FT. rewrite Ef in FT. cbn [snd] in FT. rewrite SZ, fsize_total by exact Hp. lia. }
  rewrite EZ in Ef.
  apply (P_Root_sim B2 roots gone F (heights us) fs size); [exact C | apply gone_iff_chain; assumption | apply decreasing_iff; exact Hd | exact Ef | exact S | exact LE | apply V].
Qed.
Print Assumptions C07_root.

(** Rewinding to [n] leaves, where no pruned subtree straddles the cut, gives the pruning of the rewound files. *)
Theorem C07_rewind : forall roots gone (F D : list bytes) n,
  let pos := lidx_position (LeafIndex_At n) in
  valid_roots roots (nlen F) -> gone_iff roots gone -> nlen F + 1 < W32 -> n < 2 ^ 63 ->
  pos <= nlen F -> n <= nlen D -> (forall r q, In r roots -> pos <= r -> descendant r q -> pos <= q) ->
  P_RewindHashes (PL_Load (map (fun r => r + 1) roots)) (keep gone 0 F) n = Ret (keep gone 0 (firstn (N.to_nat pos) F)) /\
  P_RewindData (PL_Load (map (fun r => r + 1) roots)) (keep (leaf_gone gone) 0 D) n = Ret (keep (leaf_gone gone) 0 (firstn (N.to_nat n) D)).
Proof.
  intros roots gone F D n pos V G S M L LD K. pose proof (valid_chain _ _ V S) as C. pose proof (proj1 (gone_iff_chain roots gone C) G) as G'.
  assert (CL : clean roots pos).
  { intros r I. destruct (N.lt_ge_cases r pos) as [|Q]; [left; assumption|]. right.
    destruct C as (_ & B & _). rewrite Forall_forall in B. specialize (B r I).
    destruct (N.eq_dec (lo r) r) as [->|NE]; [exact Q|].
    assert (LR : lo r < r) by (unfold lo in *; lia).
    apply (K r (lo r) I Q). apply descendant_interval; [lia | lia]. }
  split; [apply P_RewindHashes_sim; [exact C | exact G' | exact CL | exact L | unfold pos in *; lia]|].
  apply P_RewindData_sim; [exact C | exact G' | exact CL | exact LD | unfold lpos; unfold pos in *; lia | exact M].
Qed.
Print Assumptions C07_rewind.

(** Positions from 2^32 on alias small ones (Roaring takes 32-bit values): with the one pruned root 2,
    position 2^32 is reported compacted although nothing above it is pruned. *)
Theorem C07_large_positions_refuted : exists roots p,
  p < W64 /\ IsCompacted (PL_Load (map (fun r => r + 1) roots)) p = true /\ forall r, In r roots -> ~ descendant r p.
Proof.
  exists [2], (2 ^ 32). split; [vm_compute; reflexivity|]. split; [vm_compute; reflexivity|].
  intros r [<-|[]] D. apply (descendant_interval 2 (2 ^ 32) ltac:(lia)) in D. lia.
Qed.
Print Assumptions C07_large_positions_refuted.

(** Seven leaves (11 positions), the subtree under position 6 and the single leaf 7 pruned. *)
Example C07_example :
  let toy := fun m : bytes => 1 :: firstn 31 (map (fun x => x mod 256) (rev m) ++ repeat 7 31) in
  let xs := [[1]; [2]; [3]; [4]; [5]; [6]; [7]] in
  let gone := fun p => p <? 6 in
  match AppendAll toy [] xs with
  | Ret F => nlen F = 11 /\ length (keep gone 0 F) = 5%nat /\
             P_GetSize (PL_Load [7; 8]) (keep gone 0 F) = 11 /\
             P_Root toy (PL_Load [7; 8]) (keep gone 0 F) 11 = Root toy F 11 /\
             P_GetHashAt (PL_Load [7; 8]) (keep gone 0 F) 3 = Throw /\
             P_GetHashAt (PL_Load [7; 8]) (keep gone 0 F) 9 = GetDataAt F 9
  | _ => False
  end.
Proof. vm_compute. repeat split. Qed.
Example C07_hypotheses : valid_roots [6; 7] 11 /\ gone_iff [6; 7] (fun p => p <? 6).
Proof.
  assert (D6 : forall q, descendant 6 q <-> q < 6).
  { intros q. rewrite (descendant_interval 6 q ltac:(lia)). replace (lo 6) with 0 by (vm_compute; reflexivity). lia. }
  assert (D7 : forall q, ~ descendant 7 q).
  { intros q D. apply (descendant_interval 7 q ltac:(lia)) in D. replace (lo 7) with 7 in D by (vm_compute; reflexivity). lia. }
  split.
  - split; [repeat constructor; lia|]. split; [repeat constructor; lia|].
    intros r1 r2 [<-|[<-|[]]] [<-|[<-|[]]] D; try (apply D6 in D; lia); exact (D7 _ D).
  - intros q. cbn beta. rewrite N.ltb_lt. split.
    + intros L. exists 6. split; [left; reflexivity | apply D6; exact L].
    + intros (r & [<-|[<-|[]]] & D); [apply D6; exact D | destruct (D7 _ D)].
Qed.
