(** Properties C01, C02, C03: MMR position arithmetic agrees with post-order trees. *)
From Verif Require Import Base MMRIndexModel MMRIndexSpec MMRIndexProofs.
Local Open Scope N_scope.

(** C01: for every leaf number n up to 2^63, the position computed for leaf n is the position of
    the n-th leaf (from the left) of the post-order numbered tree. *)
Theorem C01_leaf_position : forall n : N, n <= 9223372036854775808 ->
  exists p, nth_error (leaf_positions (big_tree 64)) (N.to_nat n) = Some p /\ p < W64 /\
            LeafIndex_At n = mkLeafIndex n p.
Proof. exact leaf_position_all. Qed.
Print Assumptions C01_leaf_position.

(** ... in a tree of any height *)
Theorem C01_leaf_position_any_tree : forall H l p,
  nth_error (leaf_positions (big_tree H)) l = Some p -> p < W64 ->
  LeafIndex_At (N.of_nat l) = mkLeafIndex (N.of_nat l) p.
Proof. exact LeafIndex_At_correct. Qed.
Print Assumptions C01_leaf_position_any_tree.

Theorem C01_leaf_positions_increase : forall n m : N, n < m -> m <= 9223372036854775808 ->
  lidx_position (LeafIndex_At n) < lidx_position (LeafIndex_At m).
Proof. exact leaf_position_increasing. Qed.
Print Assumptions C01_leaf_positions_increase.

Theorem C01_height_zero_iff_leaf : forall p, p < W64 ->
  (CalculateHeight p = 0 <-> exists H, In p (leaf_positions (big_tree H))).
Proof. exact height_zero_iff_leaf. Qed.
Print Assumptions C01_height_zero_iff_leaf.

(** the inverse: leaf number of a leaf position, for every position below 2^64 - 1 *)
Theorem C01_leaf_index_inverse : forall H l p,
  nth_error (leaf_positions (big_tree H)) l = Some p -> p < W64 - 1 ->
  GetLeafIndex (Index_At p) = Ret (N.of_nat l).
Proof. exact CalculateLeafIndex_correct. Qed.
Print Assumptions C01_leaf_index_inverse.

(** At the very last 64-bit position the inverse fails: [(peakSize + 1) / 2] wraps to 0. *)
Theorem C01_leaf_index_last_position_refuted :
  lidx_position (LeafIndex_At 9223372036854775808) = W64 - 1 /\
  GetLeafIndex (Index_At (W64 - 1)) = Ret 0.
Proof. split; vm_compute; reflexivity. Qed.
Print Assumptions C01_leaf_index_last_position_refuted.

Example C01_example : nth_error (leaf_positions (big_tree 3)) 5 = Some 8 /\ (8 < W64 - 1) /\
  LeafIndex_At 5 = mkLeafIndex 5 8 /\ GetLeafIndex (Index_At 8) = Ret 5.
Proof. vm_compute. repeat split; reflexivity. Qed.

(** C02: height, children, parent and sibling of every position. *)
Theorem C02_height : forall H s, subtree s (big_tree H) -> root_pos s < W64 ->
  CalculateHeight (root_pos s) = N.of_nat (tree_height s).
Proof. exact height_of_subtree. Qed.
Print Assumptions C02_height.

Theorem C02_every_position_is_a_node : forall p, p < W64 ->
  exists H s, subtree s (big_tree H) /\ root_pos s = p.
Proof. exact position_in_big_tree. Qed.
Print Assumptions C02_every_position_is_a_node.

Theorem C02_navigation : forall H p l r,
  subtree (PNode p l r) (big_tree H) -> p < W64 ->
  GetLeftChild (Index_At p) = Ret (Index_At (root_pos l)) /\
  GetRightChild (Index_At p) = Ret (Index_At (root_pos r)) /\
  GetParent (Index_At (root_pos l)) = Ret (Index_At p) /\
  GetParent (Index_At (root_pos r)) = Ret (Index_At p) /\
  GetSibling (Index_At (root_pos l)) = Ret (Index_At (root_pos r)) /\
  GetSibling (Index_At (root_pos r)) = Ret (Index_At (root_pos l)).
Proof. exact nav_correct. Qed.
Print Assumptions C02_navigation.

(** sanity of the specification: the numbering lists consecutive positions in post-order *)
Theorem C02_spec_is_postorder : forall h b,
  positions (fst (number h b)) = map (fun i => b + N.of_nat i) (seq 0 (N.to_nat (2 ^ N.of_nat (S h) - 1))).
Proof. exact positions_seq. Qed.
Print Assumptions C02_spec_is_postorder.

Example C02_example : subtree (PNode 5 (PLeaf 3) (PLeaf 4)) (big_tree 2) /\ 5 < W64.
Proof. split; [|reflexivity]. cbv. apply sub_right. apply sub_here. Qed.

(** C03: peaks *)
Theorem C03_peaks_of_mmr : forall hs ts size,
  strictly_decreasing hs -> forest 0 hs = (ts, size) -> size < W64 ->
  GetPeakIndices size = map root_pos ts.
Proof. exact peaks_complete. Qed.
Print Assumptions C03_peaks_of_mmr.

Theorem C03_no_peaks_otherwise : forall size, size < W64 ->
  (forall hs ts, strictly_decreasing hs -> forest 0 hs <> (ts, size)) ->
  GetPeakIndices size = [].
Proof. exact peaks_incomplete. Qed.
Print Assumptions C03_no_peaks_otherwise.

Example C03_example : strictly_decreasing [2; 1; 0]%nat /\
  map root_pos (fst (forest 0 [2; 1; 0]%nat)) = [6; 9; 10] /\ snd (forest 0 [2; 1; 0]%nat) = 11 /\
  GetPeakIndices 11 = [6; 9; 10] /\ GetPeakIndices 12 = [].
Proof. vm_compute. repeat split; auto. Qed.
