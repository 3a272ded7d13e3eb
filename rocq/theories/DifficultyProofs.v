(** Proofs for C26, C28, C30, C43. *)
From Verif Require Import Base Bytes CodecModel U128Model U128Spec U128Props ConsensusModel CuckooModel DifficultyModel DifficultySpec.
Local Open Scope N_scope.

Lemma version_correct env height : GetHeaderVersion env height = version_at env height.
Proof.
  unfold version_at, GetHeaderVersion, fork_heights, HARD_FORK_INTERVAL, YEAR_HEIGHT,
    FLOONET_FIRST_HARD_FORK, FLOONET_SECOND_HARD_FORK, FLOONET_THIRD_HARD_FORK, FLOONET_FOURTH_HARD_FORK.
  change (524160 / 2) with 262080.
  destruct env; cbn [filter];
    repeat match goal with
    | |- context [?a <=? height] => let E := fresh "E" in destruct (a <=? height) eqn:E
    end;
    cbn [length];
    repeat match goal with
    | |- context [height <? ?a] => let E := fresh "F" in destruct (height <? a) eqn:E
    end; lia.
Qed.

Lemma u64_nonneg z : (0 <= z < 18446744073709551616)%Z -> u64 z = Z.to_N z.
Proof. intros H. unfold u64. rewrite Z.mod_small by exact H. reflexivity. Qed.

Lemma u64_lt z : u64 z < W64.
Proof. unfold u64. pose proof (Z.mod_pos_bound z 18446744073709551616). lia. Qed.

(** Congruence modulo 2^64 of the windowed sum. *)
Lemma fold_add64 {A} (f : A -> N) : forall l s, s < W64 ->
  fold_left (fun s i => add64 s (f i)) l s = (s + fold_right (fun i t => f i + t) 0 l) mod W64.
Proof.
  induction l as [|x l IH]; cbn [fold_left fold_right]; intros s Hs.
  - rewrite N.add_0_r, N.mod_small by exact Hs. reflexivity.
  - rewrite IH by (apply N.mod_lt; discriminate). unfold add64.
    rewrite N.add_mod_idemp_l by discriminate. f_equal. lia.
Qed.

Lemma fold_add64_bound {A} (f : A -> N) l :
  fold_left (fun s i => add64 s (f i)) l 0 < W64.
Proof. rewrite fold_add64 by lia. apply N.mod_lt. discriminate. Qed.

(** The data the loader takes from a run of headers, newest first. *)
Fixpoint infos (d_last : N) (l : list BlockHeader) : list HeaderInfo :=
  match l with
  | [] => []
  | h :: r =>
      mkInfo (u64 (h_timestamp h))
             (match r with [] => d_last | p :: _ => sub64 (h_totalDifficulty h) (h_totalDifficulty p) end)
             (h_scalingDifficulty h) (IsSecondary (h_proofOfWork h)) :: infos d_last r
  end.

Lemma infos_length d l : length (infos d l) = length l.
Proof. induction l as [|h l IH]; cbn [infos length]; [reflexivity|]. f_equal. exact IH. Qed.

Lemma load_loop_window db : forall l n key, headers_back db key l -> length l = n -> l <> [] ->
  exists d_last, load_loop db n (db key) = infos d_last l.
Proof.
  induction l as [|h l IH]; intros n key Hb Hl Hn; [contradiction|].
  destruct n as [|n]; [discriminate|]. cbn [length] in Hl. injection Hl as Hl.
  inversion Hb as [|k h' l' Hd Hb']; subst k h' l'. rewrite Hd. cbn [load_loop infos].
  destruct l as [|h2 l2].
  - cbn in Hl. subst n. cbn [load_loop infos].
    exists (match db (h_previousBlockHash h) with
            | Some p => sub64 (h_totalDifficulty h) (h_totalDifficulty p) | None => h_totalDifficulty h end).
    reflexivity.
  - destruct (IH n (h_previousBlockHash h) Hb' Hl ltac:(discriminate)) as [d E]. rewrite E. exists d.
    inversion Hb' as [|k2 h2' l2' Hd2 Hb2]; subst k2 h2' l2'. rewrite Hd2. reflexivity.
Qed.

Definition sum_diff (l : list HeaderInfo) : N := fold_right (fun i t => hi_difficulty i + t) 0 l.
Definition sum_scale (l : list HeaderInfo) : N := fold_right (fun i t => hi_secondaryScaling i + t) 0 l.

Lemma fold_right_app_sum {A} (f : A -> N) l1 l2 :
  fold_right (fun i t => f i + t) 0 (l1 ++ l2) = fold_right (fun i t => f i + t) 0 l1 + fold_right (fun i t => f i + t) 0 l2.
Proof. induction l1 as [|x l IH]; cbn [app fold_right]; [reflexivity|]. rewrite IH. lia. Qed.

Lemma fold_right_rev_sum {A} (f : A -> N) l :
  fold_right (fun i t => f i + t) 0 (rev l) = fold_right (fun i t => f i + t) 0 l.
Proof.
  induction l as [|x l IH]; cbn [rev fold_right]; [reflexivity|].
  rewrite fold_right_app_sum, IH. cbn [fold_right]. lia.
Qed.

Lemma tl_rev {A} (l : list A) : tl (rev l) = rev (removelast l).
Proof.
  induction l as [|x l _] using rev_ind; [reflexivity|].
  rewrite rev_app_distr. cbn [rev app tl]. rewrite removelast_last. reflexivity.
Qed.

Lemma removelast_cons {A} (x : A) l : l <> [] -> removelast (x :: l) = x :: removelast l.
Proof. destruct l; [contradiction|reflexivity]. Qed.

(** The differences telescope. *)
Lemma infos_telescope d : forall l h0, (forall h, In h (h0 :: l) -> h_totalDifficulty h < W64) ->
  sum_diff (removelast (infos d (h0 :: l))) mod W64 =
  sub64 (h_totalDifficulty h0) (h_totalDifficulty (last l h0)).
Proof.
  induction l as [|h1 l IH]; intros h0 Hb.
  - cbn. unfold sub64. pose proof (Hb h0 (or_introl eq_refl)).
    replace (h_totalDifficulty h0 + (W64 - h_totalDifficulty h0)) with W64 by lia. reflexivity.
  - change (infos d (h0 :: h1 :: l)) with
      (mkInfo (u64 (h_timestamp h0)) (sub64 (h_totalDifficulty h0) (h_totalDifficulty h1))
              (h_scalingDifficulty h0) (IsSecondary (h_proofOfWork h0)) :: infos d (h1 :: l)).
    rewrite removelast_cons by discriminate.
    match goal with |- sum_diff (?x :: ?r) mod _ = _ => change (sum_diff (x :: r)) with (hi_difficulty x + sum_diff r) end.
    cbn [hi_difficulty].
    rewrite <- N.add_mod_idemp_r by discriminate.
    rewrite IH by (intros h Hh; apply Hb; right; exact Hh).
    replace (last (h1 :: l) h0) with (last l h1).
    2:{ clear. revert h1. induction l as [|y l IH]; intros h1; [reflexivity|]. cbn [last] in *. destruct l; [reflexivity|].
        rewrite IH. cbn [last]. destruct l; reflexivity. }
    pose proof (Hb h0 (or_introl eq_refl)) as B0.
    pose proof (Hb h1 (or_intror (or_introl eq_refl))) as B1.
    assert (BL : h_totalDifficulty (last l h1) < W64).
    { apply Hb. right. clear. revert h1. induction l as [|y l IH]; intros h1; [left; reflexivity|].
      cbn [last]. destruct l as [|z l]; [right; left; reflexivity|].
      specialize (IH h1). cbn [last] in *. destruct IH as [IH|IH]; [left; exact IH|right; right; exact IH]. }
    unfold sub64. clear - B0 B1 BL.
    set (a := h_totalDifficulty h0) in *. set (b := h_totalDifficulty h1) in *.
    set (c := h_totalDifficulty (last l h1)) in *. clearbody a b c. lia.
Qed.

Lemma sum_scale_infos d : forall l, sum_scale (infos d l) = total_scaling l.
Proof. induction l as [|h l IH]; [reflexivity|]. unfold sum_scale, total_scaling in *. cbn [infos fold_right hi_secondaryScaling]. rewrite IH. reflexivity. Qed.

Lemma removelast_infos_scale d : forall l,
  sum_scale (removelast (infos d l)) = total_scaling (removelast l).
Proof.
  induction l as [|h l IH]; [reflexivity|]. destruct l as [|h1 l]; [reflexivity|].
  cbn [infos]. rewrite removelast_cons by discriminate. rewrite (removelast_cons h) by discriminate.
  unfold sum_scale, total_scaling in *. cbn [fold_right hi_secondaryScaling]. f_equal. exact IH.
Qed.

Definition sec_count (l : list HeaderInfo) : N := N.of_nat (length (filter hi_secondary l)).

Lemma removelast_infos_sec d : forall l,
  sec_count (removelast (infos d l)) = count_secondary (removelast l).
Proof.
  induction l as [|h l IH]; [reflexivity|]. destruct l as [|h1 l]; [reflexivity|].
  cbn [infos]. rewrite removelast_cons by discriminate. rewrite (removelast_cons h) by discriminate.
  unfold sec_count, count_secondary in *. cbn [filter hi_secondary]. unfold IsSecondary at 1, SECOND_POW_EDGE_BITS.
  destruct (m_edgeBits (h_proofOfWork h) =? 29); cbn [length]; [|exact IH].
  rewrite !Nat2N.inj_succ. f_equal. exact IH.
Qed.

Lemma fold_count : forall l s, s + N.of_nat (length l) < W64 ->
  fold_left (fun n i => if hi_secondary i then add64 n 1 else n) l s = s + sec_count l.
Proof.
  induction l as [|x l IH]; cbn [fold_left]; intros s Hs; [unfold sec_count; cbn; lia|].
  cbn [length] in Hs. unfold sec_count in *. cbn [filter]. destruct (hi_secondary x).
  - rewrite add64_small by lia. rewrite IH by lia. cbn [length]. lia.
  - apply IH. lia.
Qed.

Lemma sec_count_le l : sec_count l <= N.of_nat (length l).
Proof.
  unfold sec_count. enough (length (filter hi_secondary l) <= length l)%nat by lia.
  induction l as [|x l IH]; cbn [filter length]; [lia|]. destruct (hi_secondary x); cbn [length]; lia.
Qed.

Lemma sec_count_rev l : sec_count (rev l) = sec_count l.
Proof.
  unfold sec_count. f_equal. induction l as [|x l IH]; [reflexivity|]. cbn [rev filter].
  rewrite filter_app, app_length, IH. cbn [filter]. destruct (hi_secondary x); cbn [length]; lia.
Qed.

Lemma wanted_ratio height : SecondaryPOWRatio height = wanted_secondary height.
Proof. unfold SecondaryPOWRatio, wanted_secondary, YEAR_HEIGHT. change (2 * 524160 / 90) with 11648. lia. Qed.

Lemma wanted_le height : wanted_secondary height <= 90.
Proof. unfold wanted_secondary. lia. Qed.

Lemma sum_scale_bound : forall l, (forall i, In i l -> hi_secondaryScaling i < W32) ->
  sum_scale l <= N.of_nat (length l) * (W32 - 1).
Proof.
  induction l as [|x l IH]; intros H; [cbn; lia|].
  unfold sum_scale in *. cbn [fold_right length]. specialize (IH (fun i Hi => H i (or_intror Hi))).
  specialize (H x (or_introl eq_refl)). lia.
Qed.

Lemma scaling_exact height l : length l = 60%nat -> (forall i, In i l -> hi_secondaryScaling i < W32) ->
  SecondaryPOWScaling height l =
  scaling_required (sum_scale l) (sec_count l) (wanted_secondary height) mod W32.
Proof.
  intros Hl Hs. unfold SecondaryPOWScaling, ScalingFactorSum, ARCount. rewrite wanted_ratio.
  rewrite fold_add64 by lia. rewrite N.add_0_l.
  fold (sum_scale l). pose proof (sum_scale_bound l Hs) as B. rewrite Hl in B.
  rewrite (N.mod_small (sum_scale l)) by lia.
  rewrite fold_count by (rewrite Hl; lia). rewrite N.add_0_l.
  pose proof (sec_count_le l) as C. rewrite Hl in C. pose proof (wanted_le height) as P.
  set (s := sum_scale l) in *. set (c := sec_count l) in *. set (p := wanted_secondary height) in *. clearbody s c p.
  unfold DIFFICULTY_ADJUST_WINDOW, Damp, Clamp, AR_SCALE_DAMP_FACTOR, CLAMP_FACTOR, MIN_AR_SCALE, scaling_required.
  rewrite (mul64_small 60 p) by lia. rewrite (mul64_small c 100) by lia.
  change (13 - 1) with 12. rewrite (mul64_small 12) by lia. rewrite (add64_small (c * 100)) by lia.
  rewrite (mul64_small (60 * p)) by lia. rewrite (mul64_small s p) by nia.
  replace (60 * p / 2) with (30 * p) by lia. replace (60 * p * 2) with (120 * p) by lia.
  replace (c * 100) with (100 * c) by lia. reflexivity.
Qed.

Lemma nth_rev_last {A} (l : list A) d : nth 0 (rev l) d = last l d.
Proof.
  induction l as [|x l _] using rev_ind; [reflexivity|].
  rewrite rev_app_distr, last_last. reflexivity.
Qed.

Lemma infos_last_ts d : forall l h0 dd, hi_timestamp (last (infos d (h0 :: l)) dd) = u64 (h_timestamp (last l h0)).
Proof.
  induction l as [|h1 l IH]; intros h0 dd; [reflexivity|].
  change (infos d (h0 :: h1 :: l)) with
      (mkInfo (u64 (h_timestamp h0)) (sub64 (h_totalDifficulty h0) (h_totalDifficulty h1))
              (h_scalingDifficulty h0) (IsSecondary (h_proofOfWork h0)) :: infos d (h1 :: l)).
  change (last (mkInfo (u64 (h_timestamp h0)) (sub64 (h_totalDifficulty h0) (h_totalDifficulty h1))
              (h_scalingDifficulty h0) (IsSecondary (h_proofOfWork h0)) :: infos d (h1 :: l)) dd)
    with (last (infos d (h1 :: l)) dd).
  rewrite IH. destruct l as [|h2 l]; [reflexivity|]. cbn [last]. do 2 f_equal.
  clear. revert h1 h2. induction l as [|y l IH]; intros; [reflexivity|]. cbn [last] in *. destruct l; [reflexivity|]. apply IH; assumption.
Qed.

Lemma NextDMA_window db header h0 l :
  let hl := last l h0 in
  headers_back db (h_previousBlockHash header) (h0 :: l) -> length l = 60%nat ->
  (forall h, In h (h0 :: l) -> h_totalDifficulty h < W64 /\ h_scalingDifficulty h < W32) ->
  (0 <= h_timestamp hl)%Z -> (h_timestamp hl <= h_timestamp h0)%Z -> (h_timestamp h0 < 9223372036854775808)%Z ->
  h_totalDifficulty hl <= h_totalDifficulty h0 ->
  (h_totalDifficulty h0 - h_totalDifficulty hl) * 60 < W64 ->
  NextDMA db header = Ret (mkInfo 1
    (dma_required (h_totalDifficulty h0 - h_totalDifficulty hl) (Z.to_N (h_timestamp h0 - h_timestamp hl)))
    (scaling_required (total_scaling (removelast (h0 :: l))) (count_secondary (removelast (h0 :: l)))
       (wanted_secondary (h_height header)) mod W32) true).
Proof.
  intros hl Hb Hl Hbnd T0 T1 T2 D0 D1.
  destruct (load_loop_window db (h0 :: l) numBlocksNeeded _ Hb ltac:(cbn; rewrite Hl; reflexivity) ltac:(discriminate)) as [d E].
  unfold NextDMA, LoadDifficultyData. rewrite E. clear E.
  assert (Li : length (infos d (h0 :: l)) = 61%nat) by (rewrite infos_length; cbn; rewrite Hl; reflexivity).
  unfold PadDifficultyData. rewrite Li. change (61 <? numBlocksNeeded)%nat with false. cbv iota. cbn [obind].
  rewrite tl_rev, nth_rev_last.
  assert (Hr : length (removelast (infos d (h0 :: l))) = 60%nat).
  { rewrite removelast_firstn_len, firstn_length, Li. reflexivity. }
  rewrite scaling_exact.
  2:{ rewrite rev_length. exact Hr. }
  2:{ intros i Hi. apply in_rev in Hi. assert (Hin : In i (infos d (h0 :: l))).
      { rewrite removelast_firstn_len in Hi. rewrite <- (firstn_skipn (Nat.pred (length (infos d (h0 :: l)))) (infos d (h0 :: l))).
        apply in_or_app. left. exact Hi. }
      clear - Hin Hbnd. set (l0 := h0 :: l) in *. clearbody l0. revert Hin. induction l0 as [|h r IH]; [intros []|].
      cbn [infos]. intros [<-|Hin]; [apply Hbnd; left; reflexivity|].
      apply IH; [intros h' Hh'; apply Hbnd; right; exact Hh'|exact Hin]. }
  rewrite sec_count_rev, removelast_infos_sec.
  unfold sum_scale. rewrite fold_right_rev_sum. fold (sum_scale (removelast (infos d (h0 :: l)))). rewrite removelast_infos_scale.
  rewrite fold_add64 by lia. rewrite fold_right_rev_sum, N.add_0_l.
  fold (sum_diff (removelast (infos d (h0 :: l)))).
  rewrite infos_telescope by (intros h Hh; apply Hbnd; exact Hh). fold hl.
  assert (BL : h_totalDifficulty h0 < W64) by (apply Hbnd; left; reflexivity).
  rewrite sub64_small by assumption.
  rewrite infos_last_ts. fold hl.
  assert (N60 : nth (N.to_nat DIFFICULTY_ADJUST_WINDOW) (rev (infos d (h0 :: l))) (mkInfo 0 0 0 false) =
          nth 0 (infos d (h0 :: l)) (mkInfo 0 0 0 false)).
  { change (N.to_nat DIFFICULTY_ADJUST_WINDOW) with 60%nat. rewrite rev_nth by (rewrite Li; lia). rewrite Li. reflexivity. }
  rewrite N60. cbn [infos nth hi_timestamp].
  assert (B0 : (0 <= h_timestamp h0 < 18446744073709551616)%Z) by lia.
  assert (B1 : (0 <= h_timestamp hl < 18446744073709551616)%Z) by lia.
  rewrite (u64_nonneg _ B0), (u64_nonneg _ B1).
  rewrite sub64_small by lia.
  unfold FromDiffAndScaling, dma_required. rewrite N.mod_mod by discriminate. f_equal. f_equal.
  unfold Damp, Clamp, BLOCK_TIME_WINDOW, DMA_DAMP_FACTOR, CLAMP_FACTOR, MIN_DMA_DIFFICULTY, BLOCK_TIME_SEC.
  change (mul64 (3 - 1) 3600) with 7200. change (3600 / 2) with 1800. change (mul64 3600 2) with 7200.
  change (2 * 3600) with 7200.
  rewrite add64_small by lia. rewrite mul64_small by exact D1.
  replace (Z.to_N (h_timestamp h0 - h_timestamp hl)) with (Z.to_N (h_timestamp h0) - Z.to_N (h_timestamp hl)) by lia.
  reflexivity.
Qed.

Lemma NextWTEMA_exact env db header h0 h1 :
  db (h_previousBlockHash header) = Some h0 -> db (h_previousBlockHash h0) = Some h1 ->
  (h_timestamp h1 <= h_timestamp h0)%Z -> (h_timestamp h0 - h_timestamp h1 < 9223372036854775808)%Z ->
  h_totalDifficulty h1 <= h_totalDifficulty h0 -> h_totalDifficulty h0 < W64 ->
  (h_totalDifficulty h0 - h_totalDifficulty h1) * 14400 < W64 ->
  NextWTEMA db env header = Ret (mkInfo 1
    (wtema_required (wtema_floor env) (h_totalDifficulty h0 - h_totalDifficulty h1)
       (Z.to_N (h_timestamp h0 - h_timestamp h1))) 0 true).
Proof.
  intros H0 H1 T1 T2 D1 D2 D3. unfold NextWTEMA. rewrite H0, H1.
  assert (I : in_i64 (h_timestamp h0 - h_timestamp h1)%Z = true) by (unfold in_i64; lia).
  cbv zeta. rewrite I. cbn [negb].
  assert (B1 : (0 <= h_timestamp h0 - h_timestamp h1 < 18446744073709551616)%Z) by lia.
  rewrite (u64_nonneg _ B1), sub64_small by assumption.
  unfold WTEMA_HALF_LIFE, BLOCK_TIME_SEC. rewrite add64_small by lia.
  replace (14400 - 60 + Z.to_N (h_timestamp h0 - h_timestamp h1) =? 0) with false by lia.
  rewrite mul64_small by exact D3. unfold FromDiffAndScaling, wtema_required.
  replace (min_wtema_graph_weight env) with (wtema_floor env) by (destruct env; reflexivity). reflexivity.
Qed.

Lemma wtema_antitone f w s s' : s <= s' -> wtema_required f w s' <= wtema_required f w s.
Proof.
  intros H. unfold wtema_required. apply N.max_le_compat_l. apply N.div_le_compat_l. lia.
Qed.

Lemma dma_antitone w s s' : s <= s' -> dma_required w s' <= dma_required w s.
Proof.
  intros H. unfold dma_required. apply N.max_le_compat_l. apply N.div_le_compat_l. lia.
Qed.

Lemma dma_window w s : w / 120 <= dma_required w s /\ dma_required w s <= N.max 3 (w / 40).
Proof.
  unfold dma_required. set (a := N.max 1800 (N.min ((s + 2 * 3600) / 3) 7200)).
  assert (A : 2400 <= a <= 7200) by (unfold a; lia). clearbody a.
  assert (L : w * 60 / 7200 <= w * 60 / a) by (apply N.div_le_compat_l; lia).
  assert (U : w * 60 / a <= w * 60 / 2400) by (apply N.div_le_compat_l; lia).
  replace (w / 120) with (w * 60 / 7200) by lia.
  replace (w / 40) with (w * 60 / 2400) by lia. lia.
Qed.

(** Whatever the database holds, a computed requirement is at least the minimum. *)
Lemma next_minimum env db header info : CalculateNextDifficulty db env header = Ret info ->
  (if h_version header <? 5 then 3 else wtema_floor env) <= hi_difficulty info.
Proof.
  unfold CalculateNextDifficulty. destruct (h_version header <? 5).
  - unfold NextDMA. destruct (LoadDifficultyData db header) as [l| |]; cbn [obind]; try discriminate.
    intros H. injection H as <-. unfold FromDiffAndScaling. cbn [hi_difficulty]. unfold MIN_DMA_DIFFICULTY. lia.
  - unfold NextWTEMA. destruct (db _) as [h0|]; [|discriminate]. destruct (db _) as [h1|]; [|discriminate].
    cbv zeta. destruct (negb _); [discriminate|]. destruct (_ =? 0); [discriminate|].
    intros H. injection H as <-. unfold FromDiffAndScaling. cbn [hi_difficulty].
    replace (min_wtema_graph_weight env) with (wtema_floor env) by (destruct env; reflexivity). lia.
Qed.

Lemma load_cons db n h : exists x r, load_loop db (S n) (Some h) = x :: r.
Proof. cbn [load_loop]. eexists. eexists. reflexivity. Qed.

(** With the parent known, the calculation before the fourth fork is always defined. *)
Lemma NextDMA_defined db header h0 : db (h_previousBlockHash header) = Some h0 ->
  exists info, NextDMA db header = Ret info.
Proof.
  intros H. unfold NextDMA, LoadDifficultyData. rewrite H. change numBlocksNeeded with (S 60).
  destruct (load_cons db 60 h0) as (x & r & ->).
  unfold PadDifficultyData. cbv zeta.
  destruct (length (x :: r) <? numBlocksNeeded)%nat; cbn [obind]; eexists; reflexivity.
Qed.

Lemma scaling_bits e : 24 <= e -> e <= 63 -> ScalingDifficulty e = Ret (graph_weight e).
Proof.
  intros H1 H2. unfold ScalingDifficulty, shl64, BASE_EDGE_BITS. rewrite sub64_small by lia.
  replace (e - 24 <? 64) with true by lia. cbn [obind]. rewrite N.shiftl_mul_pow2.
  assert (P : 2 ^ (e - 24) <= 2 ^ 39) by (apply N.pow_le_mono_r; lia). change (2 ^ 39) with 549755813888 in P.
  unfold graph_weight. rewrite N.mod_small by lia. rewrite mul64_small by nia. reflexivity.
Qed.

Lemma graph_weight_lt e : e <= 63 -> graph_weight e < W64.
Proof.
  intros H. unfold graph_weight.
  assert (P : 2 ^ (e - 24) <= 2 ^ 39) by (apply N.pow_le_mono_r; lia). change (2 ^ 39) with 549755813888 in P. nia.
Qed.

Lemma scaling_small e : e < 24 -> ScalingDifficulty e = Fault.
Proof.
  intros H. unfold ScalingDifficulty, shl64, BASE_EDGE_BITS.
  replace (sub64 e 24 <? 64) with false; [reflexivity|]. unfold sub64. lia.
Qed.

Lemma is_bytes_firstn n l : is_bytes l -> is_bytes (firstn n l).
Proof.
  unfold is_bytes. rewrite !Forall_forall. intros H x Hx. apply H.
  rewrite <- (firstn_skipn n l). apply in_or_app. left. exact Hx.
Qed.
