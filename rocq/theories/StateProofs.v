(** Proofs about the transfer of the output set. *)
From Verif Require Import Base Bytes FileModel MMRIndexModel MMRHashModel SerialModel CodecModel ConsensusModel HeaderModel UtxoModel BlockModel BlockProofs StateModel StateSpec.
Local Open Scope N_scope.

Lemma firstn_plus {A} a c (l : list A) : firstn (a + c) l = firstn a l ++ firstn c (skipn a l).
Proof. revert l. induction a as [|a IH]; intros l; [reflexivity|]. destruct l as [|x l]; [cbn; rewrite !firstn_nil; reflexivity|]. cbn. rewrite IH. reflexivity. Qed.

(** * Sending *)
Lemma chunks_prefix b t f : (0 < b)%nat -> N.to_nat BUFFER_SIZE = b -> (length f <= t)%nat ->
  concat (send_chunks t f) = firstn (length f / b * b) f.
Proof.
  intros Hb Eb. revert f. induction t as [|t IH]; intros f L.
  - destruct f; [|cbn in L; lia]. cbn [send_chunks concat length]. rewrite firstn_nil. reflexivity.
  - cbn [send_chunks]. rewrite Eb. unfold nlen. destruct (N.ltb_spec (N.of_nat (length f)) BUFFER_SIZE) as [H|H].
    + rewrite Nat.div_small by lia. reflexivity.
    + cbn [concat]. rewrite IH by (rewrite skipn_length; lia). rewrite skipn_length.
      assert (E : (length f / b = 1 + (length f - b) / b)%nat) by (rewrite <- Nat.div_add_l by lia; f_equal; lia). rewrite E, Nat.mul_add_distr_r, Nat.mul_1_l, firstn_plus. reflexivity.
Qed.
Lemma wire_bytes_map l : wire_bytes (map WBytes l) = concat l.
Proof. induction l as [|b l IH]; [reflexivity|]. cbn. rewrite IH. reflexivity. Qed.
Lemma wire_bytes_app a b : wire_bytes (a ++ b) = wire_bytes a ++ wire_bytes b.
Proof. induction a as [|[] a IH]; cbn; [reflexivity| |rewrite IH, app_assoc; reflexivity|]; exact IH. Qed.
Lemma archives_app a b : archives (a ++ b) = (archives a + archives b)%nat.
Proof. induction a as [|[] a IH]; cbn; [reflexivity|rewrite IH; reflexivity| |]; exact IH. Qed.
Lemma archives_map l : archives (map WBytes l) = O.
Proof. induction l; [reflexivity|exact IHl]. Qed.

(** * Receiving *)
Lemma to_int_small x : x < 2 ^ 31 -> to_int x = Z.of_N x.
Proof.
  intros H. unfold to_int. rewrite N.mod_small by (eapply N.lt_trans; [exact H|reflexivity]). replace (Z.of_N x <? 2 ^ 31)%Z with true; [reflexivity|].
  symmetry. apply Z.ltb_lt. change (2 ^ 31)%Z with (Z.of_N (2 ^ 31)). apply N2Z.inj_lt. exact H.
Qed.
Lemma to_size_small x : x < 2 ^ 64 -> to_size (Z.of_N x) = x.
Proof.
  intros H. unfold to_size. rewrite Z.mod_small; [apply N2Z.id|]. split; [apply N2Z.is_nonneg|]. change (2 ^ 64)%Z with (Z.of_N (2 ^ 64)). apply N2Z.inj_lt. exact H.
Qed.
Lemma download_exact t z r file stream : z < 2 ^ 31 -> r <= z -> (N.to_nat (z - r) <= t)%nat ->
  download t z r file stream = Some (Ret (if z - r <=? nlen stream then Some (file ++ firstn (N.to_nat (z - r)) stream) else None)).
Proof.
  intros Hz. revert r file stream. induction t as [|t IH]; intros r file stream Hr L; cbn [download].
  - assert (r = z) by lia. subst r. rewrite N.leb_refl, N.sub_diag. rewrite (proj2 (N.leb_le 0 (nlen stream)) (N.le_0_l _)). cbn [firstn N.to_nat]. rewrite app_nil_r. reflexivity.
  - destruct (N.leb_spec z r) as [H|H].
    + assert (r = z) by lia. subst r. rewrite N.sub_diag. rewrite (proj2 (N.leb_le 0 (nlen stream)) (N.le_0_l _)). cbn [firstn N.to_nat]. rewrite app_nil_r. reflexivity.
    + assert (E1 : sub64 z r = z - r).
      { unfold sub64. replace (z + (W64 - r)) with ((z - r) + 1 * W64) by (assert (z < W64) by (eapply N.lt_trans; [exact Hz|reflexivity]); lia). rewrite N.mod_add by discriminate. apply N.mod_small. assert (2 ^ 31 < W64) by reflexivity. lia. }
      rewrite E1, to_int_small by lia. rewrite <- N2Z.inj_min. set (k := N.min (z - r) BUFFER_SIZE). assert (HB : 0 < BUFFER_SIZE) by reflexivity.
      assert (K : 0 < k /\ k <= z - r) by (unfold k; clear - H HB; lia). clearbody k. clear E1 HB.
      rewrite to_size_small by (assert (2 ^ 31 < 2 ^ 64) by reflexivity; lia). unfold ReceiveSync. destruct (N.eqb_spec k 0) as [C|_]; [exfalso; lia|].
      destruct stream as [|x0 stream0]; [destruct (N.leb_spec (z - r) (nlen (@nil N))) as [C|C]; [cbn in C; exfalso; lia|reflexivity]|].
      set (stream := x0 :: stream0). clearbody stream. replace (2 ^ 63 <=? k) with false by (symmetry; apply N.leb_gt; assert (2 ^ 31 < 2 ^ 63) by reflexivity; lia).
      unfold nlen. destruct (N.leb_spec k (N.of_nat (length stream))) as [C|C].
      * assert (A : add64 r k = r + k) by (unfold add64; apply N.mod_small; assert (2 ^ 31 < W64) by reflexivity; lia). rewrite A, IH by lia. unfold nlen. rewrite skipn_length. f_equal. f_equal.
        replace (z - (r + k) <=? N.of_nat (length stream - N.to_nat k)) with (z - r <=? N.of_nat (length stream)).
        2: { destruct (N.leb_spec (z - r) (N.of_nat (length stream))), (N.leb_spec (z - (r + k)) (N.of_nat (length stream - N.to_nat k))); try reflexivity; exfalso; lia. }
        destruct (z - r <=? N.of_nat (length stream)); [|reflexivity]. f_equal. rewrite <- app_assoc. f_equal.
        rewrite <- firstn_plus. f_equal. lia.
      * destruct (N.leb_spec (z - r) (N.of_nat (length stream))); [exfalso; lia|reflexivity].
Qed.
Lemma download_endless t z file stream : 0 < z -> z < W64 -> z mod W32 = 0 -> download t z 0 file stream = None.
Proof.
  intros H0 H1 H2. revert file stream. induction t as [|t IH]; intros file stream; cbn [download]; (destruct (N.leb_spec z 0) as [C|_]; [exfalso; lia|]); [reflexivity|].
  assert (E1 : sub64 z 0 = z) by (unfold sub64; rewrite N.sub_0_r; replace (z + W64) with (z + 1 * W64) by lia; rewrite N.mod_add by discriminate; apply N.mod_small, H1).
  rewrite E1. unfold to_int. rewrite H2. cbn [Z.of_N]. change (0 <? 2 ^ 31)%Z with true. cbn iota. change (Z.min 0 (Z.of_N BUFFER_SIZE)) with 0%Z. change (to_size 0) with 0. cbn [ReceiveSync N.eqb].
  change (add64 0 0) with 0. apply IH.
Qed.

(** * Positions *)
Lemma save_leaves_get s i o height : forall c leaf d d', save_leaves c s leaf height d = Ret d' ->
  Output_GetAt s (LeafIndex_At i) = Ret (Some o) -> (forall j o', Output_GetAt s (LeafIndex_At j) = Ret (Some o') -> oi_commitment o' = oi_commitment o -> j = i) ->
  tget (d_positions d') (oi_commitment o) =
    if (leaf <=? i) && (i <? leaf + N.of_nat c) then Some (mkLoc (LeafIndex_At i) height) else tget (d_positions d) (oi_commitment o).
Proof.
  induction c as [|c IH]; intros leaf d d' E G U; cbn [save_leaves] in E.
  - injection E as <-. destruct (N.leb_spec leaf i), (N.ltb_spec i (leaf + N.of_nat 0)); cbn [andb]; try reflexivity. lia.
  - destruct (Output_GetAt s (LeafIndex_At leaf)) as [o'| |] eqn:GL; try discriminate. cbn [obind] in E. rewrite (IH _ _ _ E G U).
    destruct (N.eq_dec leaf i) as [->|Ne].
    + assert (o' = Some o) by congruence. subst o'.
      assert (E1 : (i + 1 <=? i) = false) by (apply N.leb_gt; lia). assert (E2 : (i <=? i) = true) by (apply N.leb_le; lia).
      assert (E3 : (i <? i + N.of_nat (S c)) = true) by (apply N.ltb_lt; lia). rewrite E1, E2, E3. cbn. rewrite bytes_eqb_refl. reflexivity.
    + assert (B : (leaf + 1 <=? i) && (i <? leaf + 1 + N.of_nat c) = (leaf <=? i) && (i <? leaf + N.of_nat (S c))).
      { destruct (N.leb_spec (leaf + 1) i), (N.leb_spec leaf i), (N.ltb_spec i (leaf + 1 + N.of_nat c)), (N.ltb_spec i (leaf + N.of_nat (S c))); cbn; try reflexivity; lia. }
      rewrite B. destruct ((leaf <=? i) && (i <? leaf + N.of_nat (S c))); [reflexivity|]. destruct o' as [o'|]; [|reflexivity].
      cbn. destruct (bytes_eqb (oi_commitment o) (oi_commitment o')) eqn:Q; [|reflexivity]. apply bytes_eqb_spec in Q. exfalso. apply Ne, (U leaf o' GL). congruence.
Qed.
Lemma save_positions_get s headers i o : forall chain leaf d d', save_positions chain headers s leaf d = Ret d' ->
  Output_GetAt s (LeafIndex_At i) = Ret (Some o) -> (forall j o', Output_GetAt s (LeafIndex_At j) = Ret (Some o') -> oi_commitment o' = oi_commitment o -> j = i) ->
  tget (d_positions d') (oi_commitment o) =
    if leaf <=? i then match block_of_leaf headers i chain with Some h => Some (mkLoc (LeafIndex_At i) (h_height h)) | None => tget (d_positions d) (oi_commitment o) end
    else tget (d_positions d) (oi_commitment o).
Proof.
  induction chain as [|x chain IH]; intros leaf d d' E G U; cbn [save_positions block_of_leaf] in *.
  - injection E as <-. destruct (leaf <=? i); reflexivity.
  - destruct (tget headers x) as [h|]; [|exact (IH _ _ _ E G U)].
    destruct (GetNumOutputs h) as [k| |]; try discriminate. cbn [obind] in E.
    destruct (save_leaves _ _ _ _ _) as [d1| |] eqn:E1 in E; try discriminate. cbn [obind] in E. rewrite (IH _ _ _ E G U).
    rewrite (save_leaves_get _ _ _ _ _ _ _ _ E1 G U).
    destruct (N.leb_spec leaf i) as [L|L]; cbn [andb].
    + destruct (N.ltb_spec i k) as [K|K].
      * assert (E2 : (N.max leaf k <=? i) = false) by (apply N.leb_gt; lia). assert (E3 : (i <? leaf + N.of_nat (N.to_nat (k - leaf))) = true) by (apply N.ltb_lt; lia).
        rewrite E2, E3. reflexivity.
      * assert (E2 : (N.max leaf k <=? i) = true) by (apply N.leb_le; lia). assert (E3 : (i <? leaf + N.of_nat (N.to_nat (k - leaf))) = false) by (apply N.ltb_ge; lia).
        rewrite E2, E3. reflexivity.
    + assert (E2 : (N.max leaf k <=? i) = false) by (apply N.leb_gt; lia). rewrite E2. reflexivity.
Qed.

(** * Taking over *)
Section Process.
Variable pool : Type.
Variable Load : bytes -> BlockHeader -> option txhashset.
Variable Validate : txhashset -> BlockHeader -> outcome (option BlockSums).
Notation process := (ProcessTransactionHashSet pool Load Validate).

Lemma common_last a b k : nth 0 a [] = nth 0 b [] -> (k < length a)%nat -> (k < length b)%nat ->
  (forall j, (k < j)%nat -> (j < length a)%nat -> (j < length b)%nat -> nth j a [] <> nth j b []) -> last_common a b (common a b k).
Proof.
  intros E0. induction k as [|k IH]; intros La Lb F; cbn [common].
  - destruct (bytes_eqb _ _); repeat split; assumption.
  - destruct (bytes_eqb (nth (S k) a []) (nth (S k) b [])) eqn:E.
    + apply bytes_eqb_spec in E. repeat split; assumption.
    + apply IH; [lia|lia|]. intros j J1 J2 J3. destruct (Nat.eq_dec j (S k)) as [->|Ne]; [|apply F; lia]. intros C. rewrite C, bytes_eqb_refl in E. discriminate.
Qed.

Lemma kept (m : node pool) : let m' := rollback_all (commit_all m) in
  confirmed_now m' = confirmed_now m /\ committed (s_confirmed (n_chain m')) = confirmed_now m /\ n_set m' = mkVer (now_ (n_set m)) (now_ (n_set m)) /\ committed (n_db m') = now_ (n_db m).
Proof.
  unfold rollback_all, commit_all, State_Commit, confirmed_now. cbn. unfold mmr_commit. destruct (mmr_dirty (n_chain m)) eqn:D; cbn; rewrite ?D; cbn; repeat split; reflexivity.
Qed.
Lemma adopted hash zip n n' : process hash zip n = (Some (Ret true), n') ->
  exists h s sums, tget (d_headers (view n)) hash = Some h /\ Load zip h = Some s /\ Validate s h = Ret (Some sums) /\
    nth_error (now_ (s_candidate (n_chain n))) (N.to_nat (h_height h)) = Some (BlockHeader_GetHash h) /\
    n_set n' = mkVer (Some s) (Some s) /\ tget (d_sums (committed (n_db n'))) (BlockHeader_GetHash h) = Some sums /\
    committed (s_confirmed (n_chain n')) = confirmed_now n' /\
    let a := now_ (s_candidate (n_chain n)) in let c := common a (confirmed_now n) (Nat.min (length a) (length (confirmed_now n)) - 1) in
    confirmed_now n' = firstn (S c) (confirmed_now n) ++ skipn (S c) (firstn (S (N.to_nat (h_height h))) a).
Proof.
  unfold ProcessTransactionHashSet, ProcessTxHashSet. destruct (tget (d_headers (view n)) hash) as [h|] eqn:H; [|discriminate].
  destruct (Load zip h) as [s|] eqn:Hl; [|discriminate]. destruct (Validate s h) as [[sums|]| |] eqn:Hv; try discriminate.
  unfold UpdateConfirmedChain, Confirmed_Rewind, in_batch, bbind, bget, blift, bput, bret, bthrow. cbv beta. intros E. exists h, s, sums.
  change (now_ (s_candidate (n_chain (with_set pool n None)))) with (now_ (s_candidate (n_chain n))) in E.
  change (now_ (n_db (with_set pool n None))) with (now_ (n_db n)) in E.
  change (view (with_set pool n None)) with (view n) in E.
  destruct (save_positions _ _ _ _ _) as [d| |] eqn:Sp in E; try discriminate.
  assert (Sd : d_sums d = d_sums (db_AddBlockSums (BlockHeader_GetHash h) sums (now_ (n_db n)))).
  { assert (Sl : forall c leaf height d0 d1, save_leaves c s leaf height d0 = Ret d1 -> d_sums d1 = d_sums d0).
    { induction c as [|c IH]; intros leaf height d0 d1 E1; cbn [save_leaves] in E1; [injection E1 as <-; reflexivity|].
      destruct (Output_GetAt s (LeafIndex_At leaf)) as [[o|]| |]; try discriminate; cbn [obind] in E1; rewrite (IH _ _ _ _ E1); reflexivity. }
    revert Sp. generalize (db_AddBlockSums (BlockHeader_GetHash h) sums (now_ (n_db n))). generalize 0. generalize (firstn (S (N.to_nat (h_height (m_pBlockHeader s)))) (now_ (s_candidate (n_chain n)))).
    induction l as [|x l IH]; intros leaf d0 E1; cbn [save_positions] in E1; [injection E1 as <-; reflexivity|].
    destruct (tget _ x) as [hx|]; [|exact (IH _ _ E1)]. destruct (GetNumOutputs hx) as [k| |]; try discriminate. cbn [obind] in E1.
    destruct (save_leaves _ _ _ _ _) as [d1| |] eqn:E2 in E1; try discriminate. cbn [obind] in E1. rewrite (IH _ _ E1). exact (Sl _ _ _ _ _ E2). }
  change (now_ (s_candidate (n_chain (with_set pool (set_bdb (with_set pool n None) d) (Some s))))) with (now_ (s_candidate (n_chain n))) in E.
  destruct (nth_error _ _) as [x|] eqn:Hx in E; [|discriminate]. destruct (bytes_eqb x (BlockHeader_GetHash h)) eqn:Ex; cbn [negb] in E.
  2: { cbn in E. discriminate. }
  apply bytes_eqb_spec in Ex. subst x. change (confirmed_now (with_set pool (set_bdb (with_set pool n None) d) (Some s))) with (confirmed_now n) in E. unfold Confirmed_Rewind, bbind, bget, bput, bthrow in E.
  change (confirmed_now (with_set pool (set_bdb (with_set pool n None) d) (Some s))) with (confirmed_now n) in E.
  set (a := now_ (s_candidate (n_chain n))) in *. set (c := common a (confirmed_now n) (Nat.min (length a) (length (confirmed_now n)) - 1)) in *.
  destruct (N.of_nat c <? N.of_nat (length (confirmed_now n))) eqn:Lc; [|cbn in E; discriminate].
  replace (N.to_nat (N.of_nat c + 1)) with (S c) in E by lia. split; [reflexivity|]. split; [exact Hl|]. split; [exact Hv|]. split; [exact Hx|].
  injection E as <-. match goal with |- context [rollback_all (commit_all ?m)] => destruct (kept m) as (K1 & K2 & K3 & K4) end.
  split; [rewrite K3; reflexivity|]. split; [rewrite K4; cbn; rewrite Sd; cbn; rewrite bytes_eqb_refl; reflexivity|]. split; [rewrite K1, K2; reflexivity|].
  rewrite K1. reflexivity.
Qed.

Lemma adopted_db hash zip n n' : process hash zip n = (Some (Ret true), n') ->
  exists h s sums, tget (d_headers (view n)) hash = Some h /\ Load zip h = Some s /\ now_ (n_set n') = Some s /\
    save_positions (firstn (S (N.to_nat (h_height (m_pBlockHeader s)))) (now_ (s_candidate (n_chain n)))) (d_headers (view n)) s 0
      (db_AddBlockSums (BlockHeader_GetHash h) sums (now_ (n_db n))) = Ret (committed (n_db n')).
Proof.
  unfold ProcessTransactionHashSet, ProcessTxHashSet. destruct (tget (d_headers (view n)) hash) as [h|] eqn:H; [|discriminate].
  destruct (Load zip h) as [s|] eqn:Hl; [|discriminate]. destruct (Validate s h) as [[sums|]| |] eqn:Hv; try discriminate.
  unfold UpdateConfirmedChain, Confirmed_Rewind, in_batch, bbind, bget, blift, bput, bret, bthrow. cbv beta. intros E. exists h, s, sums.
  change (now_ (s_candidate (n_chain (with_set pool n None)))) with (now_ (s_candidate (n_chain n))) in E.
  change (now_ (n_db (with_set pool n None))) with (now_ (n_db n)) in E.
  change (view (with_set pool n None)) with (view n) in E.
  destruct (save_positions _ _ _ _ _) as [d| |] eqn:Sp in E; try discriminate.
  change (now_ (s_candidate (n_chain (with_set pool (set_bdb (with_set pool n None) d) (Some s))))) with (now_ (s_candidate (n_chain n))) in E.
  destruct (nth_error _ _) as [x|] eqn:Hx in E; [|discriminate]. destruct (bytes_eqb x (BlockHeader_GetHash h)) eqn:Ex; cbn [negb] in E.
  2: { cbn in E. discriminate. }
  change (confirmed_now (with_set pool (set_bdb (with_set pool n None) d) (Some s))) with (confirmed_now n) in E. unfold Confirmed_Rewind, bbind, bget, bput, bthrow in E.
  change (confirmed_now (with_set pool (set_bdb (with_set pool n None) d) (Some s))) with (confirmed_now n) in E.
  set (a := now_ (s_candidate (n_chain n))) in *. set (c := common a (confirmed_now n) (Nat.min (length a) (length (confirmed_now n)) - 1)) in *.
  destruct (N.of_nat c <? N.of_nat (length (confirmed_now n))) eqn:Lc; [|cbn in E; discriminate].
  split; [reflexivity|]. split; [exact Hl|].
  injection E as <-. match goal with |- context [rollback_all (commit_all ?m)] => destruct (kept m) as (K1 & K2 & K3 & K4) end.
  split; [rewrite K3; reflexivity|]. rewrite K4. exact Sp.
Qed.

Lemma failed_closed hash zip n h : tget (d_headers (view n)) hash = Some h -> Load zip h = None -> process hash zip n = (Some (Ret false), with_set pool n None).
Proof. intros H L. unfold ProcessTransactionHashSet, ProcessTxHashSet. rewrite H, L. reflexivity. Qed.
End Process.
