From Verif Require Import Base Bytes MMRIndexModel MMRIndexSpec MMRIndexProofs MMRHashModel MMRHashSpec.
Local Open Scope N_scope.

(* ------------------------------------------------------------------ *)
(** * Trees and their sizes *)

Lemma dsize_perfect t : perfect t -> dsize t = p2 (S (dheight t)) - 1.
Proof.
  induction t as [x|l IHl r IHr]; cbn [perfect dsize dheight]; intros Hp.
  - reflexivity.
  - destruct Hp as [He [Hl Hr]]. rewrite IHl, IHr by assumption. rewrite <- He.
    rewrite (p2_S (S (dheight l))). pose proof (p2_pos (S (dheight l))). lia.
Qed.

Lemma dsize_pos t : 1 <= dsize t.
Proof. induction t; cbn [dsize]; lia. Qed.

Lemma dleaves_count t : perfect t -> N.of_nat (length (dleaves t)) = p2 (dheight t).
Proof.
  induction t as [x|l IHl r IHr]; cbn [perfect dleaves dheight]; intros Hp; [reflexivity|].
  destruct Hp as [He [Hl Hr]]. rewrite app_length, p2_S. specialize (IHl Hl). specialize (IHr Hr).
  rewrite <- He in IHr. lia.
Qed.

Lemma dsize_leaves t : perfect t -> dsize t = 2 * N.of_nat (length (dleaves t)) - 1.
Proof. intros Hp. rewrite dsize_perfect, dleaves_count, p2_S by assumption. reflexivity. Qed.

Definition heights (ts : list dtree) : list nat := map dheight ts.

Lemma fsize_total ts : Forall perfect ts -> fsize ts = total (heights ts).
Proof.
  induction 1 as [|t ts Hp Hf IH]; [reflexivity|]. cbn [fsize heights map total].
  rewrite dsize_perfect, IH by assumption. reflexivity.
Qed.

Lemma decreasing_iff ts : decreasing_heights ts <-> strictly_decreasing (heights ts).
Proof.
  induction ts as [|t ts IH]; [reflexivity|]. cbn [decreasing_heights heights map strictly_decreasing].
  destruct ts as [|t' ts]; [cbn in *; tauto|]. cbn [heights map] in *. rewrite IH. reflexivity.
Qed.

Lemma decreasing_cons t ts :
  decreasing_heights (t :: ts) <-> Forall (fun u => (dheight u < dheight t)%nat) ts /\ decreasing_heights ts.
Proof.
  split.
  - revert t; induction ts as [|u ts IH]; intros t H; [split; constructor|].
    cbn [decreasing_heights] in H. destruct H as [H1 H2]. split; [|exact H2].
    destruct (IH u H2) as [H3 _]. constructor; [exact H1|].
    eapply Forall_impl; [|exact H3]. cbn. intros; lia.
  - intros [H1 H2]. cbn [decreasing_heights]. split; [|exact H2].
    destruct ts; [exact I|]. inversion H1; assumption.
Qed.

Lemma decreasing_app ts u :
  decreasing_heights (ts ++ [u]) <->
  decreasing_heights ts /\ Forall (fun t => (dheight u < dheight t)%nat) ts.
Proof.
  induction ts as [|t ts IH].
  - cbn. split; intros; repeat split; constructor.
  - cbn [app]. rewrite !decreasing_cons, IH, Forall_app. split.
    + intros [[H1 H2] [H3 H4]]. inversion H2; subst. repeat split; auto.
    + intros [[H1 H2] H3]. inversion H3; subst. repeat split; auto.
Qed.

Lemma fsize_app a b : fsize (a ++ b) = fsize a + fsize b.
Proof. induction a as [|t a IH]; cbn [app fsize]; [lia|]. rewrite IH. lia. Qed.

Lemma fsize_leaves ts : Forall perfect ts -> fsize ts + N.of_nat (length ts) = 2 * N.of_nat (length (flat_map dleaves ts)).
Proof.
  induction 1 as [|t ts Hp Hf IH]; [reflexivity|]. cbn [fsize flat_map length].
  rewrite app_length. rewrite dsize_leaves by assumption.
  pose proof (dleaves_count t Hp). pose proof (p2_pos (dheight t)). lia.
Qed.

(* ------------------------------------------------------------------ *)
(** * A tree placed after a decreasing run of taller trees is a node of the infinite forest *)

Lemma left_chain K m b : (m <= K)%nat -> subtree (fst (number m b)) (fst (number K b)).
Proof.
  induction 1 as [|K HK IH]; [constructor|].
  rewrite number_S. apply sub_left. exact IH.
Qed.

Lemma forest_subtree K b hs m :
  strictly_decreasing hs -> Forall (fun h => (m <= h)%nat) hs ->
  match hs with [] => (m <= K)%nat | h :: _ => (h < K)%nat end ->
  subtree (fst (number m (b + total hs))) (fst (number K b)).
Proof.
  revert K b; induction hs as [|h hs IH]; intros K b Hd Hm HK.
  - cbn [total]. rewrite N.add_0_r. apply left_chain. assumption.
  - cbn [total]. cbn [strictly_decreasing] in Hd. destruct Hd as [Hd1 Hd2]. inversion Hm; subst.
    apply subtree_trans with (fst (number (S h) b)); [|apply left_chain; lia].
    rewrite number_S. apply sub_right. rewrite N.add_assoc. apply IH; [assumption|assumption|].
    destruct hs; assumption.
Qed.

Lemma max_bound hs : strictly_decreasing hs -> exists K, match hs with [] => (0 <= K)%nat | h :: _ => (h < K)%nat end.
Proof. intros _. destruct hs as [|h hs]; [exists O; lia|exists (S h); lia]. Qed.

Lemma tree_after_forest ts m :
  Forall perfect ts -> decreasing_heights ts -> Forall (fun u => (m <= dheight u)%nat) ts ->
  exists K, subtree (fst (number m (fsize ts))) (big_tree K).
Proof.
  intros Hp Hd Hm. rewrite fsize_total by assumption. apply decreasing_iff in Hd.
  assert (Hm' : Forall (fun h => (m <= h)%nat) (heights ts)).
  { unfold heights. apply Forall_map. exact Hm. }
  exists (S (match heights ts with [] => m | h :: _ => h end)).
  unfold big_tree. rewrite <- (N.add_0_l (total (heights ts))).
  apply forest_subtree; [assumption|assumption|]. destruct (heights ts); lia.
Qed.

(** the position after a complete MMR is a leaf *)
Lemma after_mmr_is_leaf ts :
  Forall perfect ts -> decreasing_heights ts -> fsize ts < W64 -> IsLeaf (Index_At (fsize ts)) = true.
Proof.
  intros Hp Hd Hlt. destruct (tree_after_forest ts 0 Hp Hd) as [K Hs].
  { apply Forall_forall. intros; lia. }
  cbn [number fst] in Hs. unfold IsLeaf, Index_At. cbn [idx_height].
  pose proof (height_of_subtree K _ Hs) as E. cbn [root_pos tree_height] in E. rewrite E by assumption.
  reflexivity.
Qed.

(** the position after a decreasing run followed by two trees of equal height is their parent *)
Lemma after_pair_is_parent ts u t :
  Forall perfect (ts ++ [u; t]) -> decreasing_heights (ts ++ [u]) -> dheight u = dheight t ->
  fsize (ts ++ [u; t]) < W64 ->
  let idx := Index_At (fsize (ts ++ [u; t])) in
  IsLeaf idx = false /\
  GetLeftChild idx = Ret (Index_At (fsize ts + dsize u - 1)) /\
  GetRightChild idx = Ret (Index_At (fsize ts + dsize u + dsize t - 1)).
Proof.
  intros Hp Hd He Hlt. apply Forall_app in Hp. destruct Hp as [Hp Hp2].
  inversion Hp2 as [|? ? Hu Hp3]; subst. inversion Hp3 as [|? ? Ht _]; subst. clear Hp2 Hp3.
  apply decreasing_app in Hd. destruct Hd as [Hd Hgt].
  destruct (tree_after_forest ts (S (dheight u)) Hp Hd) as [K Hs].
  { eapply Forall_impl; [|exact Hgt]. cbn. intros; lia. }
  assert (Hfs : fsize (ts ++ [u; t]) = fsize ts + dsize u + dsize t).
  { rewrite fsize_app. cbn [fsize]. lia. }
  rewrite number_S in Hs.
  pose proof (dsize_perfect u Hu) as Su. pose proof (dsize_perfect t Ht) as St.
  pose proof (p2_S (dheight u)) as P2. pose proof (p2_pos (dheight u)) as P1.
  rewrite <- He in St.
  assert (Epos : fsize (ts ++ [u; t]) = fsize ts + 2 * (p2 (S (dheight u)) - 1)) by lia.
  cbv zeta. rewrite Epos in *.
  destruct (nav_correct _ _ _ _ Hs Hlt) as [HL [HR _]].
  rewrite HL, HR. rewrite !number_root. repeat split.
  - unfold IsLeaf, Index_At. cbn [idx_height].
    pose proof (height_of_subtree K _ Hs) as E. cbn [root_pos tree_height] in E. rewrite E by assumption. lia.
  - do 2 f_equal. lia.
  - do 2 f_equal. lia.
Qed.

Lemma ofold_cons {A B} (f : A -> B -> outcome A) a x xs a' :
  f a x = Ret a' ->
  fold_left (fun acc x => obind acc (fun g => f g x)) (x :: xs) (Ret a) =
  fold_left (fun acc x => obind acc (fun g => f g x)) xs (Ret a').
Proof. intros E. cbn [fold_left obind]. rewrite E. reflexivity. Qed.

Lemma ofold_app {A B} (f : A -> B -> outcome A) a xs ys a' :
  fold_left (fun acc x => obind acc (fun g => f g x)) xs (Ret a) = Ret a' ->
  fold_left (fun acc x => obind acc (fun g => f g x)) (xs ++ ys) (Ret a) =
  fold_left (fun acc x => obind acc (fun g => f g x)) ys (Ret a').
Proof. intros E. rewrite fold_left_app, E. reflexivity. Qed.

Lemma AddHashes_eq H file leaf :
  AddHashes H file leaf =
  AddParents H 64 (file ++ [HashLeafWithIndex H leaf (GetSize file)]) (Index_At (add64 (GetSize file) 1)).
Proof. unfold AddHashes. reflexivity. Qed.
Global Opaque AddHashes.

Section WithHash.
Variable H : bytes -> bytes.

(* ------------------------------------------------------------------ *)
(** * Layout of the hash file *)

Lemma tree_hashes_length b t : N.of_nat (length (tree_hashes H b t)) = dsize t.
Proof.
  revert b; induction t as [x|l IHl r IHr]; intros b; cbn [tree_hashes dsize]; [reflexivity|].
  rewrite !app_length. cbn [length]. specialize (IHl b). specialize (IHr (b + dsize l)). lia.
Qed.

Lemma mmr_hashes_length b ts : N.of_nat (length (mmr_hashes H b ts)) = fsize ts.
Proof.
  revert b; induction ts as [|t ts IH]; intros b; cbn [mmr_hashes fsize]; [reflexivity|].
  rewrite app_length. pose proof (tree_hashes_length b t). specialize (IH (b + dsize t)). lia.
Qed.

Lemma mmr_hashes_app b xs ys :
  mmr_hashes H b (xs ++ ys) = mmr_hashes H b xs ++ mmr_hashes H (b + fsize xs) ys.
Proof.
  revert b; induction xs as [|t xs IH]; intros b; cbn [app mmr_hashes fsize].
  - rewrite N.add_0_r. reflexivity.
  - rewrite IH, app_assoc, N.add_assoc. reflexivity.
Qed.

Lemma tree_hashes_last b t : exists l, tree_hashes H b t = l ++ [tree_hash H b t].
Proof.
  destruct t as [x|l r].
  - exists []. reflexivity.
  - exists (tree_hashes H b l ++ tree_hashes H (b + dsize l) r). cbn [tree_hashes]. rewrite app_assoc. reflexivity.
Qed.

(** reading the root of a tree stored after [pre] *)
Lemma read_root pre b t post :
  N.of_nat (length pre) = b ->
  GetDataAt (pre ++ tree_hashes H b t ++ post) (b + dsize t - 1) = Ret (tree_hash H b t).
Proof.
  intros Hb. unfold GetDataAt. destruct (tree_hashes_last b t) as [l El].
  pose proof (tree_hashes_length b t) as HL. rewrite El, app_length in HL. cbn [length] in HL.
  rewrite El, <- !app_assoc. cbn [app].
  rewrite nth_error_app2 by lia.
  rewrite nth_error_app2 by lia.
  replace (N.to_nat (b + dsize t - 1) - length pre - length l)%nat with O by lia.
  reflexivity.
Qed.

Lemma AddParents_correct fuel ts t :
  (length ts <= fuel)%nat ->
  Forall perfect (ts ++ [t]) -> decreasing_heights ts ->
  Forall (fun u => (dheight t <= dheight u)%nat) ts ->
  2 * N.of_nat (length (flat_map dleaves (ts ++ [t]))) < W64 ->
  exists ts', AddParents H fuel (mmr_hashes H 0 (ts ++ [t])) (Index_At (fsize (ts ++ [t]))) = Ret (mmr_hashes H 0 ts')
              /\ is_mmr ts' (flat_map dleaves (ts ++ [t])).
Proof.
  revert fuel t. induction ts as [|u ts IH] using rev_ind; intros fuel t Hfuel Hp Hd Hge Hlt.
  - exists [t]. cbn [app] in *.
    assert (Hmmr : is_mmr [t] (flat_map dleaves [t])).
    { repeat split; auto. }
    split; [|assumption].
    assert (Hsz : fsize [t] < W64) by (pose proof (fsize_leaves [t] Hp); lia).
    assert (HL : IsLeaf (Index_At (fsize [t])) = true).
    { apply after_mmr_is_leaf; auto; repeat split. }
    destruct fuel; cbn [AddParents]; rewrite HL; reflexivity.
  - pose proof (fsize_leaves _ Hp) as Hfl.
    apply Forall_app in Hge. destruct Hge as [Hge Hgeu]. inversion Hgeu as [|? ? Hut _]; subst.
    destruct (Nat.eq_dec (dheight u) (dheight t)) as [He|Hne].
    + (* merge *)
      rewrite <- app_assoc in *. cbn [app] in *.
      assert (Hsz : fsize (ts ++ [u; t]) < W64) by lia.
      destruct (after_pair_is_parent ts u t Hp Hd He Hsz) as [HL [HLC HRC]]. cbv zeta in *.
      rewrite app_length in Hfuel. cbn [length] in Hfuel.
      destruct fuel as [|fuel]; [lia|]. cbn [AddParents]. rewrite HL, HLC, HRC. cbn [obind idx_position Index_At].
      pose proof (mmr_hashes_length 0 ts) as Hlen.
      assert (Hfile : mmr_hashes H 0 (ts ++ [u; t]) =
                mmr_hashes H 0 ts ++ tree_hashes H (fsize ts) u ++ tree_hashes H (fsize ts + dsize u) t ++ []).
      { rewrite mmr_hashes_app, N.add_0_l. cbn [mmr_hashes]. reflexivity. }
      assert (R1 : GetDataAt (mmr_hashes H 0 (ts ++ [u; t])) (fsize ts + dsize u - 1) = Ret (tree_hash H (fsize ts) u)).
      { rewrite Hfile. apply read_root. assumption. }
      assert (R2 : GetDataAt (mmr_hashes H 0 (ts ++ [u; t])) (fsize ts + dsize u + dsize t - 1)
                   = Ret (tree_hash H (fsize ts + dsize u) t)).
      { rewrite Hfile, app_assoc. apply read_root. rewrite app_length. pose proof (tree_hashes_length (fsize ts) u). lia. }
      rewrite R1, R2. cbn [obind].
      assert (Hfs : fsize (ts ++ [u; t]) = fsize ts + dsize u + dsize t).
      { rewrite fsize_app. cbn [fsize]. lia. }
      set (n := DNode u t).
      assert (Hfile2 : mmr_hashes H 0 (ts ++ [u; t]) ++
                [HashParentWithIndex H (tree_hash H (fsize ts) u) (tree_hash H (fsize ts + dsize u) t)
                   (fsize (ts ++ [u; t]))] = mmr_hashes H 0 (ts ++ [n])).
      { rewrite Hfile, mmr_hashes_app. cbn [mmr_hashes]. rewrite N.add_0_l. unfold n. cbn [tree_hashes].
        rewrite Hfs, app_nil_r, app_nil_r, <- !app_assoc. do 3 f_equal. }
      assert (Hfl' : flat_map dleaves (ts ++ [u; t]) = flat_map dleaves (ts ++ [n])).
      { rewrite !flat_map_app. f_equal. cbn [flat_map]. unfold n. cbn [dleaves]. rewrite !app_nil_r. reflexivity. }
      assert (Hp' : Forall perfect (ts ++ [n])).
      { apply Forall_app in Hp. destruct Hp as [Hp1 Hp2]. apply Forall_app. split; [exact Hp1|].
        inversion Hp2 as [|? ? A B]; subst. inversion B; subst. constructor; [|constructor].
        unfold n. cbn [perfect]. auto. }
      assert (Hnext : GetNext (Index_At (fsize (ts ++ [u; t]))) = Index_At (fsize (ts ++ [n]))).
      { unfold GetNext. cbn [Index_At idx_position]. rewrite add64_small.
        - f_equal. rewrite Hfs, fsize_app. unfold n. cbn [fsize dsize]. lia.
        - pose proof (fsize_leaves _ Hp') as A. rewrite <- Hfl', fsize_app in A.
          rewrite Hfs. unfold n in A. cbn [fsize dsize] in A. lia. }
      unfold HashParentWithIndex in *. rewrite Hfile2, Hnext, Hfl'.
      apply decreasing_app in Hd. destruct Hd as [Hd1 Hd2].
      apply IH; try assumption.
      * lia.
      * rewrite <- Hfl'. assumption.
    + (* done *)
      exists ((ts ++ [u]) ++ [t]).
      assert (Hdec : decreasing_heights ((ts ++ [u]) ++ [t])).
      { apply decreasing_app. split; [assumption|]. apply Forall_app. split; [|constructor; [lia|constructor]].
        apply decreasing_app in Hd. destruct Hd as [_ Hd2]. eapply Forall_impl; [|exact Hd2]. cbn. intros; lia. }
      assert (HL : IsLeaf (Index_At (fsize ((ts ++ [u]) ++ [t]))) = true).
      { apply after_mmr_is_leaf; auto. lia. }
      split; [|repeat split; auto].
      destruct fuel; cbn [AddParents]; rewrite HL; reflexivity.
Qed.

Lemma mmr_length_bound ts xs : is_mmr ts xs -> 2 * N.of_nat (length xs) < W64 -> (length ts <= 64)%nat.
Proof.
  intros [Hp [Hd Hx]] Hlt.
  assert (Hall : forall ts k, decreasing_heights ts -> Forall (fun u => (dheight u < k)%nat) ts -> (length ts <= k)%nat).
  { induction ts0 as [|t ts0 IH]; intros k Hd0 Hk; [cbn; lia|].
    apply decreasing_cons in Hd0. destruct Hd0 as [A B]. inversion Hk; subst.
    cbn [length]. specialize (IH (dheight t) B A). lia. }
  apply Hall; [assumption|].
  apply Forall_forall. intros t Hin.
  assert (Hpt : perfect t) by (rewrite Forall_forall in Hp; auto).
  assert (Hle : (length (dleaves t) <= length xs)%nat).
  { rewrite <- Hx. apply in_split in Hin. destruct Hin as [a [b ->]].
    rewrite flat_map_app. cbn [flat_map]. rewrite !app_length. lia. }
  pose proof (dleaves_count t Hpt) as E. apply p2_inj_lt. rewrite p2_64. lia.
Qed.

Lemma AddHashes_correct ts xs x :
  is_mmr ts xs -> 2 * N.of_nat (length (xs ++ [x])) < W64 ->
  exists ts', AddHashes H (mmr_hashes H 0 ts) x = Ret (mmr_hashes H 0 ts') /\ is_mmr ts' (xs ++ [x]).
Proof.
  intros Hm Hlt. pose proof Hm as [Hp [Hd Hx]].
  rewrite app_length in Hlt. cbn [length] in Hlt.
  pose proof (mmr_length_bound ts xs Hm ltac:(lia)) as Hlen.
  assert (Hfl : flat_map dleaves (ts ++ [DLeaf x]) = xs ++ [x]).
  { rewrite flat_map_app, Hx. reflexivity. }
  destruct (AddParents_correct 64 ts (DLeaf x)) as [ts' [H1 H2]]; try assumption.
  - apply Forall_app; split; [assumption|]. constructor; [exact I|constructor].
  - apply Forall_forall. intros; cbn [dheight]; lia.
  - rewrite Hfl, app_length. cbn [length]. exact Hlt.
  - exists ts'. rewrite Hfl in H2. split; [|assumption]. rewrite AddHashes_eq.
    assert (E1 : mmr_hashes H 0 ts ++ [HashLeafWithIndex H x (GetSize (mmr_hashes H 0 ts))] =
                 mmr_hashes H 0 (ts ++ [DLeaf x])).
    { unfold GetSize. rewrite mmr_hashes_length, mmr_hashes_app. cbn [mmr_hashes tree_hashes app].
      rewrite N.add_0_l. reflexivity. }
    assert (E2 : add64 (GetSize (mmr_hashes H 0 ts)) 1 = fsize (ts ++ [DLeaf x])).
    { unfold GetSize. rewrite mmr_hashes_length.
      pose proof (fsize_leaves ts Hp) as E. rewrite Hx in E. rewrite add64_small by lia.
      rewrite fsize_app. cbn [fsize dsize]. lia. }
    rewrite E1, E2. exact H1.
Qed.

Lemma AppendAll_cons file x xs file' :
  AddHashes H file x = Ret file' -> AppendAll H file (x :: xs) = AppendAll H file' xs.
Proof. exact (ofold_cons (AddHashes H) file x xs file'). Qed.

Lemma AppendAll_app file xs ys file' :
  AppendAll H file xs = Ret file' -> AppendAll H file (xs ++ ys) = AppendAll H file' ys.
Proof. exact (ofold_app (AddHashes H) file xs ys file'). Qed.

Lemma AppendAll_correct xs ts pre :
  is_mmr ts pre -> 2 * N.of_nat (length (pre ++ xs)) < W64 ->
  exists ts', AppendAll H (mmr_hashes H 0 ts) xs = Ret (mmr_hashes H 0 ts') /\ is_mmr ts' (pre ++ xs).
Proof.
  revert ts pre; induction xs as [|x xs IH]; intros ts pre Hm Hlt.
  - exists ts. rewrite app_nil_r. auto.
  - replace (pre ++ x :: xs) with ((pre ++ [x]) ++ xs) in * by (rewrite <- app_assoc; reflexivity).
    destruct (AddHashes_correct ts pre x Hm) as [ts1 [H1 H2]].
    { rewrite app_length in Hlt. lia. }
    rewrite (AppendAll_cons _ _ _ _ H1). apply IH; assumption.
Qed.

Lemma is_mmr_nil : is_mmr [] [].
Proof. repeat split; constructor. Qed.

Lemma append_correct xs :
  2 * N.of_nat (length xs) < W64 ->
  exists ts, is_mmr ts xs /\ AppendAll H [] xs = Ret (mmr_hashes H 0 ts).
Proof.
  intros Hlt. destruct (AppendAll_correct xs [] [] is_mmr_nil Hlt) as [ts [H1 H2]].
  exists ts. split; assumption.
Qed.

(* ------------------------------------------------------------------ *)
(** * Uniqueness of the mountain range over a sequence *)

Lemma perfect_unique t u : perfect t -> perfect u -> dheight t = dheight u -> dleaves t = dleaves u -> t = u.
Proof.
  revert u; induction t as [x|l IHl r IHr]; intros [y|l' r']; cbn [perfect dheight dleaves]; intros Hp Hq He Hl;
    try discriminate.
  - congruence.
  - destruct Hp as [A [B C]]. destruct Hq as [A' [B' C']]. injection He as He.
    assert (HL : length (dleaves l) = length (dleaves l')).
    { pose proof (dleaves_count l B). pose proof (dleaves_count l' B'). rewrite <- He in *. lia. }
    apply app_inv_length in Hl; [|assumption]. destruct Hl as [L1 L2].
    f_equal; [apply IHl; auto|apply IHr; auto; congruence].
Qed.

Lemma leaves_lt_p2 ts k : Forall perfect ts -> decreasing_heights ts -> Forall (fun u => (dheight u < k)%nat) ts ->
  N.of_nat (length (flat_map dleaves ts)) < p2 k.
Proof.
  revert k; induction ts as [|t ts IH]; intros k Hp Hd Hk.
  - cbn. pose proof (p2_pos k). lia.
  - inversion Hp; subst. apply decreasing_cons in Hd. destruct Hd as [A B]. inversion Hk; subst.
    cbn [flat_map]. rewrite app_length. pose proof (dleaves_count t ltac:(assumption)) as E.
    specialize (IH (dheight t) ltac:(assumption) B A).
    assert (p2 (S (dheight t)) <= p2 k) by (apply p2_mono; lia). rewrite p2_S in *. lia.
Qed.

Lemma is_mmr_unique ts us xs : is_mmr ts xs -> is_mmr us xs -> ts = us.
Proof.
  revert us xs; induction ts as [|t ts IH]; intros us xs [Hp [Hd Hx]] [Hq [He Hy]].
  - destruct us as [|u us]; [reflexivity|]. exfalso. cbn in Hx. rewrite <- Hx in Hy.
    cbn [flat_map] in Hy. apply app_eq_nil in Hy. destruct Hy as [Hy _].
    inversion Hq; subst. pose proof (dleaves_count u ltac:(assumption)) as E. rewrite Hy in E.
    pose proof (p2_pos (dheight u)). cbn in E. lia.
  - destruct us as [|u us].
    + exfalso. cbn in Hy. rewrite <- Hy in Hx. cbn [flat_map] in Hx. apply app_eq_nil in Hx. destruct Hx as [Hx _].
      inversion Hp; subst. pose proof (dleaves_count t ltac:(assumption)) as E. rewrite Hx in E.
      pose proof (p2_pos (dheight t)). cbn in E. lia.
    + inversion Hp as [|? ? Pt Pts]; subst. inversion Hq as [|? ? Pu Pus]; subst.
      pose proof (decreasing_cons t ts) as [Dt _]. destruct (Dt Hd) as [Lt Dts].
      pose proof (decreasing_cons u us) as [Du _]. destruct (Du He) as [Lu Dus].
      pose proof (dleaves_count t Pt) as Ct. pose proof (dleaves_count u Pu) as Cu.
      pose proof (leaves_lt_p2 ts _ Pts Dts Lt) as Bt. pose proof (leaves_lt_p2 us _ Pus Dus Lu) as Bu.
      cbn [flat_map] in Hy.
      assert (HL : (length (dleaves u) + length (flat_map dleaves us) = length (dleaves t) + length (flat_map dleaves ts))%nat).
      { rewrite <- !app_length. rewrite Hy. reflexivity. }
      assert (Hh : dheight t = dheight u).
      { destruct (Nat.lt_trichotomy (dheight t) (dheight u)) as [L|[L|L]]; [exfalso|exact L|exfalso].
        - pose proof (p2_mono (S (dheight t)) (dheight u) L) as M. rewrite p2_S in M. lia.
        - pose proof (p2_mono (S (dheight u)) (dheight t) L) as M. rewrite p2_S in M. lia. }
      rewrite Hh in Ct.
      apply app_inv_length in Hy; [|lia]. destruct Hy as [E1 E2].
      f_equal.
      * apply perfect_unique; auto.
      * apply (IH us (flat_map dleaves ts)); repeat split; auto.
Qed.

(* ------------------------------------------------------------------ *)
(** * The file only grows: prefixes and rewinding *)

Lemma AddParents_extends fuel file idx file' :
  AddParents H fuel file idx = Ret file' -> exists ext, file' = file ++ ext.
Proof.
  revert file idx; induction fuel as [|fuel IH]; intros file idx E; cbn [AddParents] in E.
  - destruct (IsLeaf idx); [|discriminate]. injection E as E. exists []. rewrite app_nil_r. congruence.
  - destruct (IsLeaf idx).
    + injection E as E. exists []. rewrite app_nil_r. congruence.
    + destruct (GetLeftChild idx) as [lc| |]; try discriminate. cbn [obind] in E.
      destruct (GetDataAt file (idx_position lc)) as [lh| |]; try discriminate. cbn [obind] in E.
      destruct (GetRightChild idx) as [rc| |]; try discriminate. cbn [obind] in E.
      destruct (GetDataAt file (idx_position rc)) as [rh| |]; try discriminate. cbn [obind] in E.
      apply IH in E. destruct E as [ext E]. rewrite <- app_assoc in E. eexists. exact E.
Qed.

Lemma AddHashes_extends file x file' : AddHashes H file x = Ret file' -> exists ext, file' = file ++ ext.
Proof.
  rewrite AddHashes_eq. intros E. apply AddParents_extends in E. destruct E as [ext E].
  rewrite <- app_assoc in E. eexists. exact E.
Qed.

Lemma mmr_prefix ts xs us ys :
  is_mmr us xs -> is_mmr ts (xs ++ ys) -> 2 * N.of_nat (length (xs ++ ys)) < W64 ->
  exists ext, mmr_hashes H 0 ts = mmr_hashes H 0 us ++ ext.
Proof.
  revert ts xs us. induction ys as [|y ys IH]; intros ts xs us Hu Ht Hlt.
  - rewrite app_nil_r in Ht. rewrite (is_mmr_unique _ _ _ Hu Ht). exists []. rewrite app_nil_r. reflexivity.
  - replace (xs ++ y :: ys) with ((xs ++ [y]) ++ ys) in * by (rewrite <- app_assoc; reflexivity).
    destruct (AddHashes_correct us xs y Hu) as [vs [H1 H2]].
    { rewrite app_length in Hlt. lia. }
    destruct (AddHashes_extends _ _ _ H1) as [e1 E1].
    destruct (IH ts (xs ++ [y]) vs H2 Ht Hlt) as [e2 E2].
    exists (e1 ++ e2). rewrite E2, E1, app_assoc. reflexivity.
Qed.

(** number of trees = number of one bits of the number of leaves *)
Lemma popc_trees ts k : Forall perfect ts -> decreasing_heights ts -> Forall (fun u => (dheight u < k)%nat) ts ->
  popc k (N.of_nat (length (flat_map dleaves ts))) = N.of_nat (length ts).
Proof.
  revert k; induction ts as [|t ts IH]; intros k Hp Hd Hk.
  - apply popc_0.
  - inversion Hp; subst. apply decreasing_cons in Hd. destruct Hd as [A B]. inversion Hk; subst.
    cbn [flat_map length]. rewrite app_length, Nat2N.inj_add, dleaves_count by assumption.
    pose proof (leaves_lt_p2 ts (dheight t) ltac:(assumption) B A) as L.
    assert (Hs : p2 (dheight t) + N.of_nat (length (flat_map dleaves ts)) < p2 (S (dheight t)))
      by (rewrite p2_S; lia).
    rewrite (popc_any k (S (dheight t))); [| |exact Hs].
    + rewrite popc_top by assumption. rewrite IH by assumption. lia.
    + pose proof (p2_mono (S (dheight t)) k ltac:(lia)). lia.
Qed.

Lemma heights_bound ts xs : is_mmr ts xs -> 2 * N.of_nat (length xs) < W64 ->
  Forall (fun u => (dheight u < 63)%nat) ts.
Proof.
  intros [Hp [Hd Hx]] Hlt. apply Forall_forall. intros t Hin.
  assert (Hpt : perfect t) by (rewrite Forall_forall in Hp; auto).
  assert (Hle : (length (dleaves t) <= length xs)%nat).
  { rewrite <- Hx. apply in_split in Hin. destruct Hin as [a [b ->]].
    rewrite flat_map_app. cbn [flat_map]. rewrite !app_length. lia. }
  pose proof (dleaves_count t Hpt) as E. apply p2_inj_lt. change (p2 63) with 9223372036854775808. lia.
Qed.

Lemma leaf_position_fsize ts xs : is_mmr ts xs -> 2 * N.of_nat (length xs) < W64 ->
  lidx_position (LeafIndex_At (N.of_nat (length xs))) = fsize ts.
Proof.
  intros Hm Hlt. pose proof (heights_bound ts xs Hm Hlt) as Hh. destruct Hm as [Hp [Hd Hx]].
  pose proof (fsize_leaves ts Hp) as E. rewrite Hx in E.
  pose proof (popc_trees ts 64 Hp Hd) as P. rewrite Hx in P.
  unfold LeafIndex_At. cbn [lidx_position]. rewrite CountBitsSet_popc by lia.
  rewrite P.
  - rewrite mul64_small by lia. rewrite sub64_small by lia. lia.
  - eapply Forall_impl; [|exact Hh]. cbn. intros; lia.
Qed.

Lemma rewind_correct xs ys :
  2 * N.of_nat (length (xs ++ ys)) < W64 ->
  exists f1 f2, AppendAll H [] xs = Ret f1 /\ AppendAll H f1 ys = Ret f2 /\
    RewindHashes f2 (N.of_nat (length xs)) = Ret f1.
Proof.
  intros Hlt.
  assert (Hlt1 : 2 * N.of_nat (length xs) < W64) by (rewrite app_length in Hlt; lia).
  destruct (append_correct xs Hlt1) as [us [Hu Eu]].
  destruct (AppendAll_correct ys us xs Hu Hlt) as [ts [Et Ht]].
  exists (mmr_hashes H 0 us), (mmr_hashes H 0 ts). repeat split; try assumption.
  unfold RewindHashes. rewrite (leaf_position_fsize us xs Hu Hlt1).
  destruct (mmr_prefix ts xs us ys Hu Ht Hlt) as [ext Ex].
  pose proof (mmr_hashes_length 0 us) as L.
  unfold GetSize. rewrite Ex, app_length.
  destruct (N.leb_spec (fsize us) (N.of_nat (length (mmr_hashes H 0 us) + length ext))) as [_|Hbad]; [|lia].
  f_equal. replace (N.to_nat (fsize us)) with (length (mmr_hashes H 0 us) + 0)%nat by lia.
  rewrite firstn_app_2. cbn [firstn]. apply app_nil_r.
Qed.

(* ------------------------------------------------------------------ *)
(** * Root *)

Lemma RootLoop_app file size l1 l2 h :
  RootLoop H file size (l1 ++ l2) h = obind (RootLoop H file size l1 h) (RootLoop H file size l2).
Proof.
  revert h; induction l1 as [|p l1 IH]; intros h; cbn [app RootLoop obind]; [reflexivity|].
  destruct (GetDataAt file p); cbn [obind]; auto.
Qed.

Definition nonzero (h : bytes) : Prop := h <> repeat 0 32.

Lemma bag_nonzero size hs : (forall m, nonzero (H m)) -> Forall nonzero hs -> hs <> [] -> nonzero (bag H size hs).
Proof.
  intros HH Hn Hne. destruct hs as [|h hs]; [congruence|]. cbn [bag]. destruct hs; [inversion Hn; assumption|apply HH].
Qed.

Lemma RootLoop_bag file size ps hs :
  (forall m, nonzero (H m)) -> Forall nonzero hs ->
  Forall2 (fun p h => GetDataAt file p = Ret h) ps hs ->
  RootLoop H file size (rev ps) ZERO_HASH = Ret (bag H size hs).
Proof.
  intros HH Hn HF. induction HF as [|p h ps hs Hp HF IH]; [reflexivity|].
  inversion Hn as [|? ? Hh Hn']; subst.
  cbn [rev]. rewrite RootLoop_app, IH by assumption. cbn [obind RootLoop]. rewrite Hp. cbn [obind].
  apply bytes_eqb_false in Hh. unfold ZERO_HASH. rewrite Hh. f_equal.
  destruct hs as [|h' hs].
  - cbn [bag]. rewrite bytes_eqb_refl. reflexivity.
  - pose proof (bag_nonzero size (h' :: hs) HH Hn' ltac:(discriminate)) as Hb.
    apply bytes_eqb_false in Hb. rewrite Hb. reflexivity.
Qed.

Lemma peaks_read ts b pre post :
  Forall perfect ts -> N.of_nat (length pre) = b ->
  Forall2 (fun p h => GetDataAt (pre ++ mmr_hashes H b ts ++ post) p = Ret h)
    (map root_pos (fst (forest b (heights ts)))) (peak_hashes H b ts).
Proof.
  intros Hp. revert b pre; induction Hp as [|t ts Ht Hp IH]; intros b pre Hb; [constructor|].
  cbn [heights map]. rewrite forest_cons. cbn [fst map mmr_hashes peak_hashes]. constructor.
  - rewrite number_root. rewrite <- app_assoc.
    replace (b + 2 * (p2 (dheight t) - 1)) with (b + dsize t - 1).
    + apply read_root. assumption.
    + rewrite dsize_perfect by assumption. rewrite p2_S. pose proof (p2_pos (dheight t)). lia.
  - rewrite <- dsize_perfect by assumption. rewrite <- app_assoc, app_assoc. apply IH.
    rewrite app_length. pose proof (tree_hashes_length b t). lia.
Qed.

Lemma fsize_zero ts : fsize ts = 0 -> ts = [].
Proof. destruct ts as [|t ts]; [reflexivity|]. cbn [fsize]. pose proof (dsize_pos t). lia. Qed.

Lemma tree_hash_image b t : exists m, tree_hash H b t = H m.
Proof. destruct t; cbn [tree_hash]; eexists; reflexivity. Qed.

Lemma peak_hashes_image b ts : (forall m, nonzero (H m)) -> Forall nonzero (peak_hashes H b ts).
Proof.
  intros HH. revert b; induction ts as [|t ts IH]; intros b; cbn [peak_hashes]; constructor; auto.
  destruct (tree_hash_image b t) as [m ->]. apply HH.
Qed.

Lemma root_correct_gen ts xs post :
  (forall m, nonzero (H m)) -> is_mmr ts xs -> 2 * N.of_nat (length xs) < W64 ->
  Root H (mmr_hashes H 0 ts ++ post) (fsize ts) = Ret (mmr_root H ts).
Proof.
  intros HH [Hp [Hd Hx]] Hlt. pose proof (fsize_leaves ts Hp) as E. rewrite Hx in E.
  unfold Root. destruct (N.eqb_spec (fsize ts) 0) as [Hz|Hnz].
  - rewrite (fsize_zero ts Hz). reflexivity.
  - pose proof (decreasing_iff ts) as [Hdi _]. specialize (Hdi Hd).
    destruct (forest 0 (heights ts)) as [fs sz] eqn:Ef.
    assert (Hsz : sz = fsize ts).
    { pose proof (forest_total 0 (heights ts)) as Et. rewrite Ef in Et. cbn [snd] in Et.
      rewrite fsize_total by assumption. lia. }
    subst sz. rewrite (peaks_complete (heights ts) fs (fsize ts) Hdi Ef ltac:(lia)).
    unfold mmr_root. apply RootLoop_bag; [assumption|apply peak_hashes_image; assumption|].
    pose proof (peaks_read ts 0 [] post Hp eq_refl) as R. rewrite Ef in R. exact R.
Qed.

Lemma root_after_appends xs ys :
  (forall m, nonzero (H m)) -> 2 * N.of_nat (length (xs ++ ys)) < W64 ->
  exists file ts, AppendAll H [] (xs ++ ys) = Ret file /\ is_mmr ts xs /\
    Root H file (lidx_position (LeafIndex_At (N.of_nat (length xs)))) = Ret (mmr_root H ts).
Proof.
  intros HH Hlt.
  assert (Hlt1 : 2 * N.of_nat (length xs) < W64) by (rewrite app_length in Hlt; lia).
  destruct (append_correct (xs ++ ys) Hlt) as [ts [Ht Et]].
  destruct (append_correct xs Hlt1) as [us [Hu Eu]].
  exists (mmr_hashes H 0 ts), us. repeat split; try assumption; try apply Hu.
  rewrite (leaf_position_fsize us xs Hu Hlt1).
  destruct (mmr_prefix ts xs us ys Hu Ht Hlt) as [ext Ex]. rewrite Ex.
  apply root_correct_gen with xs; assumption.
Qed.

(* ------------------------------------------------------------------ *)
(** * Collision extraction *)

Definition collision : Prop := exists m m', m <> m' /\ H m = H m'.

Lemma bytes_dec (a b : bytes) : a = b \/ a <> b.
Proof. destruct (bytes_eqb a b) eqn:E; [left; apply bytes_eqb_spec; assumption|right; apply bytes_eqb_false; assumption]. Qed.

Lemma H_eq m m' : H m = H m' -> m = m' \/ collision.
Proof. intros E. destruct (bytes_dec m m') as [|Hne]; [left; assumption|right; exists m, m'; auto]. Qed.

Lemma tree_hash_len b t : (forall m, length (H m) = 32%nat) -> length (tree_hash H b t) = 32%nat.
Proof. intros HL. destruct (tree_hash_image b t) as [m ->]. apply HL. Qed.

Lemma tree_binding t u b : (forall m, length (H m) = 32%nat) ->
  perfect t -> perfect u -> dheight t = dheight u -> tree_hash H b t = tree_hash H b u -> t = u \/ collision.
Proof.
  intros HL. revert u b; induction t as [x|l IHl r IHr]; intros [y|l' r'] b Hp Hq He E;
    cbn [dheight] in He; try discriminate; cbn [tree_hash] in E.
  - apply H_eq in E. destruct E as [E|C]; [|right; assumption].
    apply app_inv_head in E. left; congruence.
  - apply H_eq in E. destruct E as [E|C]; [|right; assumption].
    cbn [perfect] in *. destruct Hp as [A [B C]]. destruct Hq as [A' [B' C']]. injection He as He.
    assert (Sl : dsize l = dsize l') by (rewrite !dsize_perfect by assumption; congruence).
    assert (Sr : dsize r = dsize r') by (rewrite !dsize_perfect by assumption; congruence).
    rewrite Sl, Sr in E. apply app_inv_head in E.
    apply app_inv_length in E; [|rewrite !tree_hash_len by assumption; reflexivity].
    destruct E as [E1 E2]. rewrite <- Sl in E2.
    destruct (IHl l' b B B' He E1) as [->|]; [|right; assumption].
    destruct (IHr r' _ C C' ltac:(congruence) E2) as [->|]; [left; reflexivity|right; assumption].
Qed.

Lemma bag_binding size hs hs' : (forall m, length (H m) = 32%nat) ->
  length hs = length hs' -> Forall (fun h => length h = 32%nat) hs -> Forall (fun h => length h = 32%nat) hs' ->
  bag H size hs = bag H size hs' -> hs = hs' \/ collision.
Proof.
  intros HL. revert hs'; induction hs as [|h hs IH]; intros [|h' hs'] Hl F F' E; try discriminate; [left; reflexivity|].
  cbn [bag] in E. injection Hl as Hl. inversion F; subst. inversion F'; subst.
  destruct hs as [|h2 hs]; destruct hs' as [|h2' hs']; try discriminate.
  - left; congruence.
  - apply H_eq in E. destruct E as [E|C]; [|right; assumption].
    apply app_inv_head in E. apply app_inv_length in E; [|congruence]. destruct E as [E1 E2].
    destruct (IH (h2' :: hs') Hl ltac:(assumption) ltac:(assumption) E2) as [->|]; [left; congruence|right; assumption].
Qed.

Lemma peak_binding ts us b : (forall m, length (H m) = 32%nat) ->
  Forall perfect ts -> Forall perfect us -> heights ts = heights us ->
  peak_hashes H b ts = peak_hashes H b us -> ts = us \/ collision.
Proof.
  intros HL. revert us b; induction ts as [|t ts IH]; intros [|u us] b Hp Hq He E; try discriminate; [left; reflexivity|].
  cbn [heights map peak_hashes] in *. injection He as He1 He2. inversion Hp; subst. inversion Hq; subst.
  injection E as E1 E2.
  assert (Sz : dsize t = dsize u) by (rewrite !dsize_perfect by assumption; congruence). rewrite Sz in E2.
  destruct (tree_binding t u b HL ltac:(assumption) ltac:(assumption) He1 E1) as [->|]; [|right; assumption].
  destruct (IH us _ ltac:(assumption) ltac:(assumption) He2 E2) as [->|]; [left; reflexivity|right; assumption].
Qed.

Lemma heights_determined ts us : Forall perfect ts -> Forall perfect us -> decreasing_heights ts -> decreasing_heights us ->
  length (flat_map dleaves ts) = length (flat_map dleaves us) -> heights ts = heights us.
Proof.
  revert us; induction ts as [|t ts IH]; intros [|u us] Hp Hq Hd He Hl; cbn [flat_map heights map] in *.
  - reflexivity.
  - rewrite app_length in Hl. inversion Hq; subst. pose proof (dleaves_count u ltac:(assumption)). pose proof (p2_pos (dheight u)). cbn in Hl. lia.
  - rewrite app_length in Hl. inversion Hp; subst. pose proof (dleaves_count t ltac:(assumption)). pose proof (p2_pos (dheight t)). cbn in Hl. lia.
  - inversion Hp as [|? ? Pt Pts]; subst. inversion Hq as [|? ? Pu Pus]; subst.
    pose proof (decreasing_cons t ts) as [Dt _]. destruct (Dt Hd) as [Lt Dts].
    pose proof (decreasing_cons u us) as [Du _]. destruct (Du He) as [Lu Dus].
    pose proof (dleaves_count t Pt) as Ct. pose proof (dleaves_count u Pu) as Cu.
    pose proof (leaves_lt_p2 ts _ Pts Dts Lt) as Bt. pose proof (leaves_lt_p2 us _ Pus Dus Lu) as Bu.
    rewrite !app_length in Hl.
    assert (Hh : dheight t = dheight u).
    { destruct (Nat.lt_trichotomy (dheight t) (dheight u)) as [L|[L|L]]; [exfalso|exact L|exfalso].
      - pose proof (p2_mono (S (dheight t)) (dheight u) L) as M. rewrite p2_S in M. lia.
      - pose proof (p2_mono (S (dheight u)) (dheight t) L) as M. rewrite p2_S in M. lia. }
    rewrite Hh in *. f_equal. apply IH; auto. lia.
Qed.

Lemma peak_hashes_len b ts : (forall m, length (H m) = 32%nat) -> Forall (fun h => length h = 32%nat) (peak_hashes H b ts).
Proof.
  intros HL. revert b; induction ts as [|t ts IH]; intros b; cbn [peak_hashes]; constructor; auto.
  apply tree_hash_len; assumption.
Qed.

Lemma peak_hashes_length b ts : length (peak_hashes H b ts) = length ts.
Proof. revert b; induction ts as [|t ts IH]; intros b; cbn; auto. Qed.

Lemma fsize_heights ts us : Forall perfect ts -> Forall perfect us -> heights ts = heights us -> fsize ts = fsize us.
Proof. intros A B E. rewrite !fsize_total by assumption. congruence. Qed.

Lemma mmr_root_binding ts us xs ys : (forall m, length (H m) = 32%nat) ->
  is_mmr ts xs -> is_mmr us ys -> length xs = length ys -> mmr_root H ts = mmr_root H us -> xs = ys \/ collision.
Proof.
  intros HL [Hp [Hd Hx]] [Hq [He Hy]] Hl E.
  assert (Hh : heights ts = heights us) by (apply heights_determined; auto; congruence).
  unfold mmr_root in E. rewrite (fsize_heights ts us Hp Hq Hh) in E.
  apply bag_binding in E; auto using peak_hashes_len.
  - destruct E as [E|C]; [|right; assumption].
    apply peak_binding in E; auto. destruct E as [->|C]; [left; congruence|right; assumption].
  - rewrite !peak_hashes_length. apply (f_equal (@length _)) in Hh. unfold heights in Hh. rewrite !map_length in Hh. exact Hh.
Qed.

Lemma root_binding xs ys fx fy r :
  (forall m, length (H m) = 32%nat) -> (forall m, H m <> ZERO_HASH) ->
  2 * N.of_nat (length xs) < W64 -> length xs = length ys ->
  AppendAll H [] xs = Ret fx -> AppendAll H [] ys = Ret fy ->
  Root H fx (GetSize fx) = Ret r -> Root H fy (GetSize fy) = Ret r ->
  xs = ys \/ collision.
Proof.
  intros HL HH Hlt Hl Ex Ey Rx Ry.
  destruct (append_correct xs Hlt) as [ts [Ht Et]].
  assert (Hlt2 : 2 * N.of_nat (length ys) < W64) by lia.
  destruct (append_correct ys Hlt2) as [us [Hu Eu]].
  rewrite Et in Ex. injection Ex as <-. rewrite Eu in Ey. injection Ey as <-.
  unfold GetSize in *. rewrite mmr_hashes_length in *.
  pose proof (root_correct_gen ts xs [] HH Ht Hlt) as A. rewrite app_nil_r in A.
  pose proof (root_correct_gen us ys [] HH Hu Hlt2) as B. rewrite app_nil_r in B.
  apply (mmr_root_binding ts us); auto. congruence.
Qed.

End WithHash.
