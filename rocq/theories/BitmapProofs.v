(** Proofs for C09. *)
From Verif Require Import Base Bytes MMRIndexModel MMRIndexSpec MMRIndexProofs MMRHashModel MMRHashSpec MMRHashProofs FileModel BitmapModel BitmapSpec.
From Coq Require Import Sorting.Sorted.
Local Open Scope N_scope.

Definition keys_sorted (m : bmap) : Prop := StronglySorted N.lt (map fst m).

Lemma map_put_keys k v m x : In x (map fst (map_put k v m)) -> x = k \/ In x (map fst m).
Proof.
  induction m as [|[k' v'] m IH]; cbn [map_put map fst In]; [intuition|].
  destruct (k <? k'); cbn [map fst In]; [intuition|]. destruct (k =? k') eqn:E; cbn [map fst In].
  - intuition.
  - intros [->|H]; [tauto|]. apply IH in H. tauto.
Qed.
Lemma map_put_sorted k v m : keys_sorted m -> keys_sorted (map_put k v m).
Proof.
  unfold keys_sorted. induction m as [|[k' v'] m IH]; intros H; cbn [map_put].
  { repeat constructor. }
  cbn [map fst] in H. inversion H as [|? ? H1 H2]; subst.
  destruct (k <? k') eqn:E1; [|destruct (k =? k') eqn:E2]; cbn [map fst].
  - constructor; [assumption|]. constructor; [lia|]. eapply Forall_impl; [|exact H2]. intros; lia.
  - apply N.eqb_eq in E2. subst. constructor; assumption.
  - constructor; [apply IH; assumption|]. rewrite Forall_forall in *. intros x Hx.
    apply map_put_keys in Hx. destruct Hx as [->|Hx]; [lia|auto].
Qed.
Lemma find_put k v m j : keys_sorted m -> map_find j (map_put k v m) = if j =? k then Some v else map_find j m.
Proof.
  unfold keys_sorted. induction m as [|[k' v'] m IH]; intros H; cbn [map_put map_find].
  { destruct (j =? k); reflexivity. }
  cbn [map fst] in H. inversion H as [|? ? H1 H2]; subst.
  destruct (k <? k') eqn:E1; [|destruct (k =? k') eqn:E2]; cbn [map_find].
  - reflexivity.
  - apply N.eqb_eq in E2. subst. destruct (j =? k'); reflexivity.
  - rewrite IH by assumption. destruct (j =? k') eqn:E3; [|reflexivity].
    destruct (j =? k) eqn:E4; [lia|reflexivity].
Qed.
Lemma last_key_max m : forall k, keys_sorted m -> In k (map fst m) -> k <= map_last_key m.
Proof.
  unfold keys_sorted. induction m as [|[k' v'] m IH]; intros k H Hin; [destruct Hin|].
  cbn [map fst] in H. inversion H as [|? ? H1 H2]; subst.
  cbn [map_last_key]. destruct m as [|[k2 v2] m].
  - cbn in Hin. destruct Hin as [->|[]]. lia.
  - destruct Hin as [Hin|Hin]; [|apply IH; assumption]. cbn [fst] in Hin. subst k'.
    cbn [map fst] in H2. inversion H2; subst. apply N.le_trans with k2; [cbn [fst]; lia|]. apply IH; [assumption|left; reflexivity].
Qed.
Lemma find_in k m v : map_find k m = Some v -> In k (map fst m).
Proof.
  induction m as [|[k' v'] m IH]; cbn; [discriminate|]. destruct (k =? k') eqn:E; [|auto]. intros _. left. lia.
Qed.

(** Bits. *)
Lemma BitToByte_pow k : k < 8 -> BitToByte k = 2 ^ (7 - k).
Proof. intros H. unfold BitToByte. rewrite N.shiftl_mul_pow2, N.mul_1_l. apply N.mod_small. apply N.le_lt_trans with (2 ^ 7); [apply N.pow_le_mono_r; lia|reflexivity]. Qed.
Lemma land_pow2 x k : negb (N.land x (2 ^ k) =? 0) = N.testbit x k.
Proof.
  destruct (N.testbit x k) eqn:E.
  - apply negb_true_iff, N.eqb_neq. intros H. assert (N.testbit (N.land x (2 ^ k)) k = false) by (rewrite H; apply N.bits_0).
    rewrite N.land_spec, E, N.pow2_bits_true in H0. discriminate.
  - apply negb_false_iff, N.eqb_eq. apply N.bits_inj_0. intros n. rewrite N.land_spec.
    destruct (N.eq_dec n k) as [->|Hn]; [rewrite E; reflexivity|]. rewrite N.pow2_bits_false by congruence. apply andb_false_r.
Qed.
Lemma land_bit x k : k < 8 -> negb (N.land x (BitToByte k) =? 0) = N.testbit x (7 - k).
Proof. intros. rewrite BitToByte_pow by assumption. apply land_pow2. Qed.
Lemma bit_testbit i k : i < 8 -> k < 8 -> N.testbit (BitToByte i) (7 - k) = (i =? k).
Proof.
  intros. rewrite BitToByte_pow by assumption. destruct (i =? k) eqn:E.
  - assert (i = k) by lia. subst. apply N.pow2_bits_true.
  - apply N.pow2_bits_false. lia.
Qed.
Lemma testbit_255 k : k < 8 -> N.testbit 255 k = true.
Proof. intros. change 255 with (N.ones 8). apply N.ones_spec_low. assumption. Qed.

(** Byte view. *)
Definition wfb (b : bitmapfile) : Prop := keys_sorted (m_modifiedBytes b).

Lemma GetByte_eq b k : GetByte b k = match map_find k (m_modifiedBytes b) with Some v => v | None => nth (N.to_nat k) (bdisk b) 0 end.
Proof.
  unfold GetByte. destruct (map_find k (m_modifiedBytes b)); [reflexivity|].
  destruct (k <? nlen (bdisk b)) eqn:E; [reflexivity|]. symmetry. apply nth_overflow. unfold nlen in E. lia.
Qed.
Lemma IsSet_bit b j : IsSet b j = N.testbit (GetByte b (j / 8)) (7 - j mod 8).
Proof. unfold IsSet. apply land_bit. apply N.mod_lt. lia. Qed.

Lemma IsSet_Set b i j : wfb b -> IsSet (BF_Set b i) j = (j =? i) || IsSet b j.
Proof.
  intros W. rewrite !IsSet_bit, !GetByte_eq. unfold BF_Set. cbn [m_modifiedBytes bdisk]. rewrite find_put by assumption.
  assert (Bj : j mod 8 < 8) by (apply N.mod_lt; lia). assert (Bi : i mod 8 < 8) by (apply N.mod_lt; lia).
  destruct (j / 8 =? i / 8) eqn:E.
  - apply N.eqb_eq in E. rewrite GetByte_eq. rewrite N.lor_spec, bit_testbit by assumption. rewrite E.
    replace (j =? i) with (i mod 8 =? j mod 8). { apply orb_comm. }
    pose proof (N.div_mod i 8 ltac:(lia)). pose proof (N.div_mod j 8 ltac:(lia)).
    destruct (i mod 8 =? j mod 8) eqn:E1; symmetry; lia.
  - replace (j =? i) with false; [reflexivity|]. symmetry. apply N.eqb_neq. intros ->. rewrite N.eqb_refl in E. discriminate.
Qed.
Lemma IsSet_Unset b i j : wfb b -> IsSet (BF_Unset b i) j = negb (j =? i) && IsSet b j.
Proof.
  intros W. rewrite !IsSet_bit, !GetByte_eq. unfold BF_Unset. cbn [m_modifiedBytes bdisk]. rewrite find_put by assumption.
  assert (Bj : j mod 8 < 8) by (apply N.mod_lt; lia). assert (Bi : i mod 8 < 8) by (apply N.mod_lt; lia).
  destruct (j / 8 =? i / 8) eqn:E.
  - apply N.eqb_eq in E. rewrite GetByte_eq. rewrite N.land_spec, N.lxor_spec, bit_testbit by assumption.
    rewrite testbit_255 by lia. rewrite E.
    replace (xorb true (i mod 8 =? j mod 8)) with (negb (i mod 8 =? j mod 8)) by reflexivity.
    replace (j =? i) with (i mod 8 =? j mod 8). { apply andb_comm. }
    pose proof (N.div_mod i 8 ltac:(lia)). pose proof (N.div_mod j 8 ltac:(lia)).
    destruct (i mod 8 =? j mod 8) eqn:E1; symmetry; lia.
  - replace (j =? i) with false; [reflexivity|]. symmetry. apply N.eqb_neq. intros ->. rewrite N.eqb_refl in E. discriminate.
Qed.
Lemma wfb_Set b i : wfb b -> wfb (BF_Set b i). Proof. apply map_put_sorted. Qed.
Lemma wfb_Unset b i : wfb b -> wfb (BF_Unset b i). Proof. apply map_put_sorted. Qed.

Lemma fold_Set l : forall b, wfb b -> wfb (fold_left BF_Set l b) /\ bdisk (fold_left BF_Set l b) = bdisk b /\
  forall j, IsSet (fold_left BF_Set l b) j = true <-> In j l \/ IsSet b j = true.
Proof.
  induction l as [|i l IH]; intros b W; cbn [fold_left].
  { split; [assumption|]. split; [reflexivity|]. cbn. tauto. }
  destruct (IH (BF_Set b i) (wfb_Set b i W)) as (W' & D & H). split; [assumption|]. split; [rewrite D; reflexivity|].
  intros j. rewrite H, IsSet_Set, orb_true_iff, N.eqb_eq by assumption. cbn [In]. intuition.
Qed.
Lemma fold_Unset l : forall b, wfb b -> wfb (fold_left BF_Unset l b) /\ bdisk (fold_left BF_Unset l b) = bdisk b /\
  forall j, IsSet (fold_left BF_Unset l b) j = true <-> ~ In j l /\ IsSet b j = true.
Proof.
  induction l as [|i l IH]; intros b W; cbn [fold_left].
  { split; [assumption|]. split; [reflexivity|]. cbn. tauto. }
  destruct (IH (BF_Unset b i) (wfb_Unset b i W)) as (W' & D & H). split; [assumption|]. split; [rewrite D; reflexivity|].
  intros j. rewrite H, IsSet_Unset, andb_true_iff, negb_true_iff, N.eqb_neq by assumption. cbn [In]. intuition.
Qed.
Lemma in_range lo hi x : In x (N_range lo hi) <-> lo <= x < hi.
Proof.
  unfold N_range. rewrite in_map_iff. split.
  - intros (k & <- & Hk). apply in_seq in Hk. lia.
  - intros H. exists (N.to_nat (x - lo)). split; [lia|]. apply in_seq. lia.
Qed.

Lemma beyond_bytes b j : wfb b -> GetNumBytes b <= j -> GetByte b j = 0.
Proof.
  intros W H. rewrite GetByte_eq. unfold GetNumBytes in H.
  destruct (map_find j (m_modifiedBytes b)) as [v|] eqn:E.
  - exfalso. apply find_in in E. pose proof (last_key_max _ _ W E) as L.
    destruct (m_modifiedBytes b) as [|e m]; [destruct E|].
    destruct (bdisk b); lia.
  - apply nth_overflow. destruct (bdisk b) as [|x l]; [cbn; lia|]. unfold nlen in H. lia.
Qed.
Lemma beyond_bits b j : wfb b -> GetNumBytes b * 8 <= j -> IsSet b j = false.
Proof.
  intros W H. rewrite IsSet_bit, beyond_bytes; [apply N.bits_0|assumption|].
  apply N.div_le_lower_bound; lia.
Qed.
Lemma Rewind_ok b n add : wfb b -> wfb (BF_Rewind b n add) /\ bdisk (BF_Rewind b n add) = bdisk b /\
  forall j, IsSet (BF_Rewind b n add) j = true <-> (In j add \/ IsSet b j = true) /\ j < n.
Proof.
  intros W. unfold BF_Rewind. destruct (fold_Set add b W) as (W1 & D1 & H1).
  set (b1 := fold_left BF_Set add b) in *.
  destruct (fold_Unset (N_range n (GetNumBytes b1 * 8)) b1 W1) as (W2 & D2 & H2).
  split; [assumption|]. split; [congruence|]. intros j. rewrite H2, in_range, H1.
  split; [|intros [A B]; split; [lia|exact A]].
  intros [A B]. split; [exact B|].
  destruct (N.lt_ge_cases j n) as [|G]; [assumption|]. exfalso. apply A. split; [assumption|].
  destruct (N.lt_ge_cases j (GetNumBytes b1 * 8)) as [|G2]; [assumption|].
  apply H1 in B. rewrite (beyond_bits b1 j W1 G2) in B. discriminate.
Qed.

(** Commit. *)
Lemma nth_write f k v j : nth j (write_byte f k v) 0 = if (N.of_nat j =? k) then v else nth j f 0.
Proof.
  unfold write_byte. unfold nlen. destruct (k <? N.of_nat (length f)) eqn:E.
  - assert (L : length (firstn (N.to_nat k) f) = N.to_nat k) by (rewrite firstn_length; lia).
    destruct (N.of_nat j =? k) eqn:E1.
    + rewrite app_nth2 by lia. rewrite L. replace (j - N.to_nat k)%nat with O by lia. reflexivity.
    + destruct (Nat.lt_ge_cases j (N.to_nat k)) as [G|G].
      * rewrite app_nth1 by lia. rewrite <- (firstn_skipn (N.to_nat k) f) at 2. rewrite app_nth1 by lia. reflexivity.
      * rewrite app_nth2 by lia. rewrite L. replace (j - N.to_nat k)%nat with (S (j - S (N.to_nat k))) by lia. cbn [nth].
        rewrite <- (firstn_skipn (S (N.to_nat k)) f) at 2. rewrite app_nth2; rewrite firstn_length; [|lia].
        f_equal. lia.
  - destruct (N.of_nat j =? k) eqn:E1.
    + rewrite app_assoc. rewrite app_nth2; rewrite app_length, repeat_length; [|lia].
      replace (j - _)%nat with O by lia. reflexivity.
    + destruct (Nat.lt_ge_cases j (length f)) as [G|G].
      * rewrite app_nth1 by lia. reflexivity.
      * rewrite (nth_overflow f) by lia. rewrite app_nth2 by lia.
        destruct (Nat.lt_ge_cases (j - length f) (N.to_nat (k - N.of_nat (length f)))) as [G2|G2].
        -- rewrite app_nth1 by (rewrite repeat_length; unfold nlen; lia). apply nth_repeat.
        -- apply nth_overflow. rewrite app_length, repeat_length. unfold nlen. cbn [length]. lia.
Qed.
Lemma nth_writes m : forall f j, keys_sorted m ->
  nth j (fold_left (fun f kv => write_byte f (fst kv) (snd kv)) m f) 0 =
  match map_find (N.of_nat j) m with Some v => v | None => nth j f 0 end.
Proof.
  unfold keys_sorted. induction m as [|[k v] m IH]; intros f j H; cbn [fold_left map_find]; [reflexivity|].
  cbn [map fst] in H. inversion H as [|? ? H1 H2]; subst. cbn [fst snd]. rewrite IH by assumption. rewrite nth_write.
  destruct (N.of_nat j =? k) eqn:E; [|reflexivity].
  destruct (map_find (N.of_nat j) m) eqn:F; [|reflexivity].
  apply find_in in F. rewrite Forall_forall in H2. apply H2 in F. lia.
Qed.
Lemma Commit_byte b k : wfb b -> nth (N.to_nat k) (bdisk (BF_Commit b)) 0 = GetByte b k.
Proof.
  intros W. rewrite GetByte_eq. unfold BF_Commit. destruct (m_modifiedBytes b) as [|e m] eqn:E.
  - rewrite ?E. reflexivity.
  - cbn [bdisk]. rewrite nth_writes by (rewrite <- E; exact W). rewrite N2Nat.id. reflexivity.
Qed.
Lemma Commit_nomod b : m_modifiedBytes (BF_Commit b) = [].
Proof. unfold BF_Commit. destruct (m_modifiedBytes b) eqn:E; [exact E|reflexivity]. Qed.
Lemma bit_of_disk b j : m_modifiedBytes b = [] -> IsSet b j = bit_of (bdisk b) j.
Proof. intros H. rewrite IsSet_bit, GetByte_eq, H. reflexivity. Qed.
Lemma Commit_bits b j : wfb b -> bit_of (bdisk (BF_Commit b)) j = IsSet b j.
Proof. intros W. unfold bit_of. rewrite Commit_byte by assumption. symmetry. apply IsSet_bit. Qed.

(** Roaring positions. *)
Lemma leaf_at_unique i j p : leaf_at i p -> leaf_at j p -> p < W64 - 1 -> i = j.
Proof.
  intros [H Hi] [H' Hj] Hp. apply CalculateLeafIndex_correct in Hi; [|assumption]. apply CalculateLeafIndex_correct in Hj; [|assumption].
  rewrite Hi in Hj. inversion Hj. lia.
Qed.
Lemma roaring_index_pos v : 1 <= v < W32 -> roaring_index v = Index_At (v - 1).
Proof. intros. unfold roaring_index. f_equal. lia. Qed.
Lemma IsLeaf_At p : IsLeaf (Index_At p) = (CalculateHeight p =? 0). Proof. reflexivity. Qed.
Lemma pos_At p : idx_position (Index_At p) = p. Proof. reflexivity. Qed.
Lemma GetLeafIndex_At p : GetLeafIndex (Index_At p) = if CalculateHeight p =? 0 then Ret (CalculateLeafIndex p) else Fault.
Proof. reflexivity. Qed.
Lemma Ret_inj {A} (x y : A) : Ret x = Ret y -> x = y. Proof. intros H; inversion H; reflexivity. Qed.
Lemma roaring_leaf v : 1 <= v < W32 ->
  if IsLeaf (roaring_index v) then leaf_at (CalculateLeafIndex (idx_position (roaring_index v))) (v - 1)
  else forall i, ~ leaf_at i (v - 1).
Proof.
  intros Hv. rewrite roaring_index_pos by assumption. rewrite IsLeaf_At, pos_At.
  assert (B : v - 1 < W64 - 1) by lia. assert (B' : v - 1 < W64) by lia.
  pose proof (height_zero_iff_leaf (v - 1) B') as HZ.
  pose proof (fun H l E => CalculateLeafIndex_correct H l (v - 1) E B) as C.
  rewrite GetLeafIndex_At in C.
  revert HZ C. generalize (CalculateHeight (v - 1)) (CalculateLeafIndex (v - 1)). intros h li HZ C.
  destruct (h =? 0) eqn:E.
  - apply N.eqb_eq in E. apply HZ in E.
    destruct E as [H E]. apply In_nth_error in E. destruct E as [l E]. exists H.
    apply C in E as C'. apply Ret_inj in C'. rewrite C', Nat2N.id. assumption.
  - intros i [H Hi]. apply nth_error_In in Hi.
    assert (h = 0) by (apply HZ; exists H; assumption). lia.
Qed.
Section Gen.
Variables (test : N -> bool) (num : N -> N) (rel : N -> N -> Prop).
Hypothesis R : forall v, 1 <= v < W32 -> if test v then rel (num v) v else forall i, ~ rel i v.
Hypothesis U : forall i j v, 1 <= v < W32 -> rel i v -> rel j v -> i = j.
Lemma gen_set l : forall b, wfb b -> Forall (fun v => 1 <= v < W32) l ->
  let b' := fold_left (fun b v => if test v then BF_Set b (num v) else b) l b in
  wfb b' /\ bdisk b' = bdisk b /\
  forall j, IsSet b' j = true <-> (exists v, In v l /\ rel j v) \/ IsSet b j = true.
Proof.
  induction l as [|v l IH]; intros b W F; cbn [fold_left]; cbv zeta.
  { split; [assumption|]. split; [reflexivity|]. intros j. split; [auto|]. intros [(v & [] & _)|]; assumption. }
  inversion F as [|? ? Hv F']; subst. pose proof (R v Hv) as Rv.
  destruct (test v) eqn:E.
  - destruct (IH (BF_Set b (num v)) (wfb_Set b (num v) W) F') as (W1 & D1 & H1). split; [assumption|]. split; [rewrite D1; reflexivity|].
    intros j. rewrite H1, IsSet_Set, orb_true_iff, N.eqb_eq by assumption. split.
    + intros [(w & A & B)|[->|A]]; [left; exists w; split; [right|]; assumption|left; exists v; split; [left; reflexivity|assumption]|right; assumption].
    + intros [(w & [->|A] & B)|A]; [right; left; eapply U; eauto|left; exists w; split; assumption|right; right; assumption].
  - destruct (IH b W F') as (W1 & D1 & H1). split; [assumption|]. split; [assumption|].
    intros j. rewrite H1. split.
    + intros [(w & A & B)|A]; [left; exists w; split; [right|]; assumption|right; assumption].
    + intros [(w & [->|A] & B)|A]; [exfalso; eapply Rv; eauto|left; exists w; split; assumption|right; assumption].
Qed.
Lemma gen_unset l : forall b, wfb b -> Forall (fun v => 1 <= v < W32) l ->
  let b' := fold_left (fun b v => if test v then BF_Unset b (num v) else b) l b in
  wfb b' /\ bdisk b' = bdisk b /\
  forall j, IsSet b' j = true <-> ~ (exists v, In v l /\ rel j v) /\ IsSet b j = true.
Proof.
  induction l as [|v l IH]; intros b W F; cbn [fold_left]; cbv zeta.
  { split; [assumption|]. split; [reflexivity|]. intros j. split; [|tauto]. intros. split; [|assumption]. intros (v & [] & _). }
  inversion F as [|? ? Hv F']; subst. pose proof (R v Hv) as Rv.
  destruct (test v) eqn:E.
  - destruct (IH (BF_Unset b (num v)) (wfb_Unset b (num v) W) F') as (W1 & D1 & H1). split; [assumption|]. split; [rewrite D1; reflexivity|].
    intros j. rewrite H1, IsSet_Unset, andb_true_iff, negb_true_iff, N.eqb_neq by assumption. split.
    + intros [A [B C]]. split; [|assumption]. intros (w & [->|D] & G); [|apply A; exists w; split; assumption].
      apply B. eapply U; eauto.
    + intros [A C]. split; [intros (w & D & G); apply A; exists w; split; [right|]; assumption|]. split; [|assumption].
      intros ->. apply A. exists v. split; [left; reflexivity|assumption].
  - destruct (IH b W F') as (W1 & D1 & H1). split; [assumption|]. split; [assumption|].
    intros j. rewrite H1. split.
    + intros [A C]. split; [|assumption]. intros (w & [->|D] & G); [exfalso; eapply Rv; eauto|apply A; exists w; split; assumption].
    + intros [A C]. split; [|assumption]. intros (w & D & G). apply A. exists w. split; [right|]; assumption.
Qed.
End Gen.
Lemma leaf_at_unique' i j v : 1 <= v < W32 -> leaf_at i (v - 1) -> leaf_at j (v - 1) -> i = j.
Proof. intros H A B. eapply leaf_at_unique; eauto. lia. Qed.
Lemma SetRoaring_ok l b : wfb b -> Forall (fun v => 1 <= v < W32) l ->
  wfb (BF_SetRoaring b l) /\ bdisk (BF_SetRoaring b l) = bdisk b /\
  forall j, IsSet (BF_SetRoaring b l) j = true <-> (exists v, In v l /\ leaf_at j (v - 1)) \/ IsSet b j = true.
Proof. exact (gen_set _ _ _ roaring_leaf leaf_at_unique' l b). Qed.
Lemma UnsetRoaring_ok l b : wfb b -> Forall (fun v => 1 <= v < W32) l ->
  wfb (BF_UnsetRoaring b l) /\ bdisk (BF_UnsetRoaring b l) = bdisk b /\
  forall j, IsSet (BF_UnsetRoaring b l) j = true <-> ~ (exists v, In v l /\ leaf_at j (v - 1)) /\ IsSet b j = true.
Proof. exact (gen_unset _ _ _ roaring_leaf leaf_at_unique' l b). Qed.

(** Refinement. *)
Definition bop_of (o : setop) : bop :=
  match o with
  | Insert i => BSet i | Delete i => BUnset i | Rewind n a => BRewind n a | Save => BCommit | Restore => BRollback
  | InsertPositions l => BSetRoaring l | DeletePositions l => BUnsetRoaring l
  end.
Record BInv (b : bitmapfile) (s : bspec) : Prop := {
  bW : wfb b;
  bN : forall j, IsSet b j = true <-> now s j;
  bS : forall j, bit_of (bdisk b) j = true <-> saved s j
}.
Lemma bstep_ok b s o : BInv b s -> setop_ok o -> BInv (BF_step b (bop_of o)) (set_step s o).
Proof.
  intros [W Hn Hs] Ho. destruct o; cbn [bop_of BF_step set_step setop_ok] in *.
  - constructor; cbn [now saved]; [apply wfb_Set; assumption| |exact Hs]. intros j. rewrite IsSet_Set, orb_true_iff, N.eqb_eq, Hn by assumption. tauto.
  - constructor; cbn [now saved]; [apply wfb_Unset; assumption| |exact Hs]. intros j. rewrite IsSet_Unset, andb_true_iff, negb_true_iff, N.eqb_neq, Hn by assumption. tauto.
  - destruct (Rewind_ok b n add W) as (W1 & D1 & H1). constructor; cbn [now saved]; [assumption| |intros j; rewrite D1; apply Hs].
    intros j. rewrite H1, Hn. tauto.
  - constructor; cbn [now saved].
    + unfold wfb. rewrite Commit_nomod. constructor.
    + intros j. rewrite bit_of_disk by apply Commit_nomod. rewrite Commit_bits by assumption. apply Hn.
    + intros j. rewrite Commit_bits by assumption. apply Hn.
  - constructor; cbn [now saved]; [constructor| |exact Hs]. intros j. rewrite bit_of_disk by reflexivity. apply Hs.
  - destruct (SetRoaring_ok l b W Ho) as (W1 & D1 & H1). constructor; cbn [now saved]; [assumption| |intros j; rewrite D1; apply Hs].
    intros j. rewrite H1, Hn. tauto.
  - destruct (UnsetRoaring_ok l b W Ho) as (W1 & D1 & H1). constructor; cbn [now saved]; [assumption| |intros j; rewrite D1; apply Hs].
    intros j. rewrite H1, Hn. tauto.
Qed.
Lemma brun_ok ops : forall b s, BInv b s -> Forall setop_ok ops ->
  BInv (fold_left BF_step (map bop_of ops) b) (set_run s ops).
Proof.
  unfold set_run. induction ops as [|o ops IH]; intros b s I F; cbn [map fold_left]; [assumption|].
  inversion F; subst. apply IH; [apply bstep_ok; assumption|assumption].
Qed.
Lemma binv_load f : BInv (BF_Load f) (mkB (fun j => bit_of f j = true) (fun j => bit_of f j = true)).
Proof. constructor; cbn; [constructor| |tauto]. intros j. rewrite bit_of_disk by reflexivity. tauto. Qed.

(** ToRoaring. *)
Lemma leaf_at_model i : i < 2147483648 -> leaf_at i (lidx_position (LeafIndex_At i)) /\ lidx_position (LeafIndex_At i) < 2 * i + 1.
Proof.
  intros H. destruct (leaf_position_all i ltac:(lia)) as (p & E & Hp & C). rewrite C; cbn [lidx_position]. split; [exists 64%nat; exact E|].
  apply big_leaf_inv in E. rewrite N2Nat.id in E. lia.
Qed.
Lemma ToRoaring_ok b x : wfb b -> GetNumBytes b <= 268435456 ->
  (In x (ToRoaring b) <-> exists i, IsSet b i = true /\ i < 2147483648 /\ 1 <= x /\ leaf_at i (x - 1)).
Proof.
  intros W H. unfold ToRoaring. rewrite in_flat_map. rewrite N.mod_small by lia.
  assert (P : forall i j, i < GetNumBytes b -> j < 8 -> (i * 8 + j) mod W32 = i * 8 + j /\ i * 8 + j < 2147483648).
  { intros i j Hi Hj. split; [apply N.mod_small|]; lia. }
  split.
  - intros (i & Hi & Hx). apply in_range in Hi. apply in_flat_map in Hx. destruct Hx as (j & Hj & Hx).
    assert (Hj8 : j < 8) by (cbn in Hj; lia).
    destruct (0 <? N.land (GetByte b i) (BitToByte j)) eqn:E; [|destruct Hx]. destruct Hx as [Hx|[]].
    destruct (P i j ltac:(lia) Hj8) as [P1 P2]. rewrite P1 in Hx.
    destruct (leaf_at_model (i * 8 + j) P2) as [L1 L2].
    rewrite add64_small in Hx by lia. rewrite N.mod_small in Hx by lia.
    exists (i * 8 + j). rewrite IsSet_bit. replace ((i * 8 + j) / 8) with i by lia. replace ((i * 8 + j) mod 8) with j by lia.
    rewrite <- land_bit by assumption. split; [lia|]. split; [assumption|]. split; [lia|].
    rewrite <- Hx. rewrite N.add_sub. assumption.
  - intros (i & Hi & Hb & Hx & Hl).
    assert (G : i / 8 < GetNumBytes b).
    { destruct (N.lt_ge_cases (i / 8) (GetNumBytes b)) as [|G]; [assumption|]. rewrite IsSet_bit, beyond_bytes, N.bits_0 in Hi by assumption. discriminate. }
    exists (i / 8). split; [apply in_range; lia|]. apply in_flat_map. exists (i mod 8).
    assert (M : i mod 8 < 8) by (apply N.mod_lt; lia).
    split. { cbn. lia. }
    rewrite IsSet_bit, <- land_bit in Hi by assumption.
    destruct (0 <? N.land (GetByte b (i / 8)) (BitToByte (i mod 8))) eqn:E; [|lia]. left.
    replace (i / 8 * 8 + i mod 8) with i by lia.
    destruct (leaf_at_model i Hb) as [L1 L2]. rewrite (N.mod_small i W32) by lia.
    destruct L1 as [H1 L1]. destruct Hl as [H2 Hl].
    assert (Eq : lidx_position (LeafIndex_At i) = x - 1).
    { destruct (N.lt_ge_cases (x - 1) W64) as [A|A].
      - apply LeafIndex_At_correct in Hl; [|assumption]. rewrite N2Nat.id in Hl. rewrite Hl. reflexivity.
      - exfalso. apply big_leaf_inv in Hl. apply big_leaf_inv in L1. lia. }
    rewrite Eq in *. rewrite add64_small by lia. rewrite N.mod_small by lia. lia.
Qed.

(** Bytes stay below 256. *)
Definition byte_ok (b : bitmapfile) : Prop :=
  wfb b /\ (forall k, GetByte b k < 256) /\ (forall k, nth k (bdisk b) 0 < 256).
Lemma lt256_bits x : x < 256 <-> forall n, 8 <= n -> N.testbit x n = false.
Proof.
  split.
  - intros H n Hn. destruct (N.eq_dec x 0) as [->|]; [apply N.bits_0|]. apply N.bits_above_log2.
    apply N.lt_le_trans with 8; [|assumption]. apply N.log2_lt_pow2; [lia|exact H].
  - intros H. destruct (N.lt_ge_cases x 256) as [|G]; [assumption|exfalso].
    assert (L : 8 <= N.log2 x) by (apply (N.log2_le_pow2 x 8); [lia|exact G]).
    specialize (H (N.log2 x) L). rewrite N.bit_log2 in H by lia. discriminate.
Qed.
Lemma lor_lt x y : x < 256 -> y < 256 -> N.lor x y < 256.
Proof. rewrite !lt256_bits. intros A B n Hn. rewrite N.lor_spec, A, B by assumption. reflexivity. Qed.
Lemma land_lt x y : x < 256 -> N.land x y < 256.
Proof. rewrite !lt256_bits. intros A n Hn. rewrite N.land_spec, A by assumption. reflexivity. Qed.
Lemma BitToByte_lt k : BitToByte k < 256.
Proof. unfold BitToByte. apply N.mod_lt. lia. Qed.
Lemma byte_ok_Set b i : byte_ok b -> byte_ok (BF_Set b i).
Proof.
  intros (W & G & D). split; [apply wfb_Set; assumption|]. split; [|exact D]. intros k. rewrite GetByte_eq. unfold BF_Set; cbn [m_modifiedBytes bdisk].
  rewrite find_put by assumption. destruct (k =? i / 8); [apply lor_lt; [apply G|apply BitToByte_lt]|]. rewrite <- GetByte_eq. apply G.
Qed.
Lemma byte_ok_Unset b i : byte_ok b -> byte_ok (BF_Unset b i).
Proof.
  intros (W & G & D). split; [apply wfb_Unset; assumption|]. split; [|exact D]. intros k. rewrite GetByte_eq. unfold BF_Unset; cbn [m_modifiedBytes bdisk].
  rewrite find_put by assumption. destruct (k =? i / 8); [apply land_lt; apply G|]. rewrite <- GetByte_eq. apply G.
Qed.
Lemma byte_ok_fold (f : bitmapfile -> N -> bitmapfile) l : (forall b i, byte_ok b -> byte_ok (f b i)) ->
  forall b, byte_ok b -> byte_ok (fold_left f l b).
Proof. intros Hf. induction l; intros b H; cbn [fold_left]; auto. Qed.
Lemma byte_ok_step b o : byte_ok b -> byte_ok (BF_step b o).
Proof.
  intros H. destruct o; cbn [BF_step].
  - apply byte_ok_Set; assumption.
  - apply byte_ok_Unset; assumption.
  - unfold BF_Rewind. apply byte_ok_fold; [apply byte_ok_Unset|]. apply byte_ok_fold; [apply byte_ok_Set|assumption].
  - destruct H as (W & G & D).
    assert (DD : forall k, nth k (bdisk (BF_Commit b)) 0 < 256).
    { intros k. rewrite <- (Nat2N.id k). rewrite Commit_byte by assumption. apply G. }
    split; [unfold wfb; rewrite Commit_nomod; constructor|]. split; [|exact DD].
    intros k. rewrite GetByte_eq, Commit_nomod. apply DD.
  - destruct H as (W & G & D). split; [constructor|]. split; [|exact D]. intros k. rewrite GetByte_eq. apply D.
  - unfold BF_SetRoaring. apply (byte_ok_fold (fun b v => _)); [|assumption]. intros b' v Hb. destruct (IsLeaf _); [apply byte_ok_Set; assumption|assumption].
  - unfold BF_UnsetRoaring. apply (byte_ok_fold (fun b v => _)); [|assumption]. intros b' v Hb. destruct (IsLeaf _); [apply byte_ok_Unset; assumption|assumption].
Qed.
Lemma byte_ok_run ops : forall b, byte_ok b -> byte_ok (fold_left BF_step ops b).
Proof. induction ops; intros b H; cbn [fold_left]; [assumption|]. apply IHops, byte_ok_step, H. Qed.
Lemma byte_ok_load f : is_bytes f -> byte_ok (BF_Load f).
Proof.
  intros H. assert (D : forall k, nth k f 0 < 256).
  { intros k. destruct (Nat.lt_ge_cases k (length f)) as [L|L]; [|rewrite nth_overflow by lia; lia].
    unfold is_bytes in H. rewrite Forall_forall in H. apply H. apply nth_In. assumption. }
  split; [constructor|]. split; [|exact D]. intros k. rewrite GetByte_eq. apply D.
Qed.
Lemma byte_from_bits b1 b2 k : byte_ok b1 -> byte_ok b2 ->
  (forall j, k * 8 <= j < k * 8 + 8 -> IsSet b1 j = IsSet b2 j) -> GetByte b1 k = GetByte b2 k.
Proof.
  intros (_ & G1 & _) (_ & G2 & _) H. apply N.bits_inj. intros n.
  destruct (N.lt_ge_cases n 8) as [L|L].
  - specialize (H (k * 8 + (7 - n)) ltac:(lia)). rewrite !IsSet_bit in H.
    replace ((k * 8 + (7 - n)) / 8) with k in H by lia. replace ((k * 8 + (7 - n)) mod 8) with (7 - n) in H by lia.
    replace (7 - (7 - n)) with n in H by lia. exact H.
  - rewrite (proj1 (lt256_bits _) (G1 k) n L), (proj1 (lt256_bits _) (G2 k) n L). reflexivity.
Qed.
Lemma same_set_same_chunks b1 b2 n : byte_ok b1 -> byte_ok b2 -> (forall j, IsSet b1 j = IsSet b2 j) ->
  leafset_chunks b1 n = leafset_chunks b2 n.
Proof.
  intros O1 O2 H. unfold leafset_chunks. apply map_ext. intros i. unfold leafset_chunk. apply map_ext. intros k.
  apply byte_from_bits; auto.
Qed.
Lemma map_range_eq {A} (f g : N -> A) lo hi : map f (N_range lo hi) = map g (N_range lo hi) -> forall x, lo <= x < hi -> f x = g x.
Proof.
  intros H x Hx. apply in_range in Hx. revert H Hx. generalize (N_range lo hi). intros l.
  induction l as [|y l IH]; cbn [map In]; [tauto|]. intros H [->|Hx]; inversion H; auto.
Qed.
Lemma N_range_length lo hi : length (N_range lo hi) = N.to_nat (hi - lo).
Proof. unfold N_range. rewrite map_length, seq_length. reflexivity. Qed.
Lemma same_chunks_same_set b1 b2 n : n + 1023 < W64 -> leafset_chunks b1 n = leafset_chunks b2 n ->
  forall j, j < n -> IsSet b1 j = IsSet b2 j.
Proof.
  unfold leafset_chunks, leafset_chunk. intros Hn E j Hj. rewrite add64_small in E by assumption.
  pose proof (map_range_eq _ _ _ _ E (j / 1024) ltac:(lia)) as E1. cbv beta in E1.
  pose proof (map_range_eq _ _ _ _ E1 (j / 8) ltac:(lia)) as E2.
  rewrite !IsSet_bit, E2. reflexivity.
Qed.
Lemma leafset_root_binds H b1 b2 n r :
  (forall m, length (H m) = 32%nat) -> (forall m, H m <> repeat 0 32) -> n + 1023 < W64 ->
  LeafSet_Root H b1 n = Ret r -> LeafSet_Root H b2 n = Ret r ->
  (forall j, j < n -> IsSet b1 j = IsSet b2 j) \/ exists m m', m <> m' /\ H m = H m'.
Proof.
  intros HL HZ Hn. unfold LeafSet_Root.
  destruct (AppendAll H [] (leafset_chunks b1 n)) as [f1| |] eqn:E1; try discriminate.
  destruct (AppendAll H [] (leafset_chunks b2 n)) as [f2| |] eqn:E2; try discriminate.
  cbn [obind]. intros R1 R2.
  assert (L : forall b, length (leafset_chunks b n) = N.to_nat ((n + 1023) / 1024)).
  { intros b. unfold leafset_chunks. rewrite map_length, N_range_length, add64_small by assumption. f_equal. lia. }
  assert (B1 : 2 * N.of_nat (length (leafset_chunks b1 n)) < W64) by (rewrite L; lia).
  destruct (root_binding H _ _ f1 f2 r HL HZ B1 ltac:(rewrite !L; reflexivity) E1 E2 R1 R2) as [E|C]; [left|right; exact C].
  apply same_chunks_same_set; assumption.
Qed.
Lemma leafset_root_defined H b n : (forall m, H m <> repeat 0 32) -> n + 1023 < W64 ->
  exists ts, is_mmr ts (leafset_chunks b n) /\ LeafSet_Root H b n = Ret (mmr_root H ts).
Proof.
  intros HZ Hn.
  assert (L : length (leafset_chunks b n) = N.to_nat ((n + 1023) / 1024)).
  { unfold leafset_chunks. rewrite map_length, N_range_length, add64_small by assumption. f_equal. lia. }
  assert (B1 : 2 * N.of_nat (length (leafset_chunks b n)) < W64) by (rewrite L; lia).
  destruct (append_correct H (leafset_chunks b n) B1) as (ts & M & E).
  exists ts. split; [assumption|]. unfold LeafSet_Root. rewrite E. cbn [obind].
  unfold MMRHashModel.GetSize. rewrite mmr_hashes_length.
  rewrite <- (app_nil_r (mmr_hashes H 0 ts)). apply root_correct_gen with (leafset_chunks b n); assumption.
Qed.
