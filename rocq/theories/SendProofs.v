(** Proofs about building a send (C37) and about the balance (C39). *)
From Coq Require Import Permutation Sorted.
From Verif Require Import Base Bytes FileModel CodecModel ConsensusModel ValidationModel KeyPathModel KeyPathProofs
  WalletModel WalletSpec CoinProofs TableProofs.
Local Open Scope N_scope.

Lemma change_rest (f : nat -> KeyChainPath -> OutputDataEntity) q : (forall i p, i <> 0%nat -> c_amount (f i p) = q) ->
  forall k a ps, length ps = k -> (0 < a)%nat ->
  total (map (fun p => f (fst p) (snd p)) (combine (seq a k) ps)) = N.of_nat k * q.
Proof.
  intros H k. induction k as [|k IH]; intros a ps L A; cbn [seq combine map]; [reflexivity|].
  destruct ps as [|p ps]; [discriminate|]. cbn [combine map fst snd]. rewrite total_cons, IH by (cbn in L; lia).
  rewrite H by lia. lia.
Qed.
Lemma change_total commit_of t n i ps : 0 < n -> t < W64 -> length ps = N.to_nat n ->
  total (map (fun p => CreateBlindedOutput commit_of (change_amount t n (fst p)) (snd p) i) (combine (seq 0 (N.to_nat n)) ps)) = t.
Proof.
  intros Hn Ht L. destruct (N.to_nat n) as [|k] eqn:K; [lia|]. destruct ps as [|p ps]; [discriminate|].
  cbn [seq combine map fst snd]. rewrite total_cons.
  rewrite (change_rest (fun j p => CreateBlindedOutput commit_of (change_amount t n j) p i) (t / n)).
  - cbn [CreateBlindedOutput c_amount change_amount Nat.eqb].
    pose proof (N.div_mod t n ltac:(lia)) as D. pose proof (N.mod_lt t n ltac:(lia)) as M.
    assert (Hk : n = 1 + N.of_nat k) by lia.
    assert (E : n * (t / n) = t / n + N.of_nat k * (t / n)) by (rewrite Hk at 1; lia).
    rewrite E in D. clear E Hk. revert D M. generalize (t / n) as q, (t mod n) as m. intros q m D M.
    generalize dependent (N.of_nat k * q). intros x D. rewrite add64_small by lia. lia.
  - intros j q Hj. cbn [CreateBlindedOutput c_amount change_amount]. unfold change_amount. destruct (Nat.eqb_spec j 0); [lia|reflexivity].
  - cbn in L. lia.
  - lia.
Qed.
Lemma combine_length_eq {A} k (ps : list A) a : length ps = k -> length (combine (seq a k) ps) = k.
Proof. intros H. rewrite combine_length, seq_length, H. lia. Qed.
Lemma combine_snd {A} (ps : list A) : forall k a, length ps = k -> map snd (combine (seq a k) ps) = ps.
Proof. induction ps as [|p ps IH]; intros k a <-; cbn; [reflexivity|]. f_equal. apply IH. reflexivity. Qed.

Section Send.
Variable sort : list OutputDataEntity -> list OutputDataEntity.
Variable env : Environment.
Variable min_confs : N.
Variable commit_of : KeyChainPath -> N -> bytes.
Variable ndebug : bool.
Hypothesis Ss : sorts sort.
Hypothesis Ci : forall p a p' a', commit_of p a = commit_of p' a' -> p = p'.

Definition new_paths (r : N) (n : N) : list KeyChainPath := map (fun j => child (r + N.of_nat j)) (seq 0 (N.to_nat n)).
Definition change_coins (r t i n : N) : list OutputDataEntity :=
  map (fun p => CreateBlindedOutput commit_of (change_amount t n (fst p)) (snd p) i)
      (combine (seq 0 (N.to_nat n)) (new_paths r n)).

Lemma new_paths_length r n : length (new_paths r n) = N.to_nat n.
Proof. unfold new_paths. rewrite map_length, seq_length. reflexivity. Qed.
Lemma create_spec d r t i n : d_accounts d = at_index r ->
  CreateOutputs commit_of d t i n = Ret (change_coins r t i n, set_accounts (at_index (r + n)) d).
Proof.
  intros E. unfold CreateOutputs. rewrite E, next_paths_spec. cbn [obind fst snd]. rewrite N2Nat.id. reflexivity.
Qed.
Lemma change_coins_coms r t i n c : In c (coms (change_coins r t i n)) -> exists p a, In p (new_paths r n) /\ c = commit_of p a.
Proof.
  unfold coms, change_coins. rewrite map_map. intros H. apply in_map_iff in H. destruct H as ((j & p) & E & I).
  cbn in E. exists p, (change_amount t n j). split; auto.
  rewrite <- (combine_snd (new_paths r n) (N.to_nat n) 0%nat (new_paths_length r n)). apply (in_map snd) in I. exact I.
Qed.
Lemma change_coins_nodup r t i n : n <= W32 -> NoDup (coms (change_coins r t i n)).
Proof.
  intros L. pose proof (paths_distinct r (N.to_nat n) ltac:(lia)) as D. fold (new_paths r n) in D.
  unfold coms, change_coins. rewrite map_map. cbn [CreateBlindedOutput c_commitment].
  rewrite <- (combine_snd (new_paths r n) (N.to_nat n) 0%nat (new_paths_length r n)) in D.
  revert D. generalize (combine (seq 0 (N.to_nat n)) (new_paths r n)). intros l.
  induction l as [|q l IH]; cbn [map]; intros D; constructor; inversion D; subst; auto.
  intros H. apply in_map_iff in H. destruct H as (q' & E & I). apply Ci in E. apply H1. rewrite <- E. apply in_map. exact I.
Qed.
Lemma change_coins_status r t i n c : In c (change_coins r t i n) -> c_status c = NO_CONFIRMATIONS /\ c_tx c = Some i /\ c_height c = None.
Proof. unfold change_coins. intros H. apply in_map_iff in H. destruct H as (p & <- & _). auto. Qed.

(** what a successful build leaves behind *)
Lemma build_spec d r id a fee n inputs slate d2 : d_accounts d = at_index r ->
  Build commit_of d id a fee n inputs = Ret (slate, d2) ->
  let t := sub64 (sum64 inputs) (add64 a fee) in
  let change := if 0 <? n then change_coins r t (d_nextTx d) n else [] in
  let tx := BuildWalletTx (d_nextTx d) inputs change slate in
  s_id slate = id /\ s_stage slate = STANDARD_SENT /\ s_amount slate = a /\ s_fee slate = mkFee 0 fee /\
  LoadSlateContext id d = None /\
  d_outputs d2 = fold_left save_output (map (SetStatus LOCKED) inputs) (fold_left save_output change (d_outputs d)) /\
  d_txs d2 = save_tx (d_txs d) tx /\ d_nextTx d2 = (d_nextTx d + 1) mod W32 /\ d_refresh d2 = d_refresh d /\
  d_accounts d2 = at_index (r + n) /\ d_contexts d2 = d_contexts d ++ [(id, mkContext inputs change)] /\
  d_slates d2 = d_slates d ++ [slate].
Proof.
  intros E H t change tx. unfold Build in H. cbn [GetNextTransactionId] in H.
  set (d1 := set_nextTx ((d_nextTx d + 1) mod W32) d) in *.
  assert (E1 : d_accounts d1 = at_index r) by exact E.
  fold t in H.
  assert (R : (if 0 <? n then CreateOutputs commit_of d1 t (d_nextTx d) n else Ret ([], d1)) =
              Ret (change, set_accounts (at_index (r + n)) d1)).
  { unfold change. destruct (N.ltb_spec 0 n) as [L|L].
    - apply create_spec. exact E1.
    - replace (r + n) with r by lia. f_equal. f_equal. unfold set_accounts. rewrite <- E1. destruct d1; reflexivity. }
  rewrite R in H. cbn [obind] in H. unfold Send_UpdateDatabase, SaveSlateContext in H.
  cbn [s_id d_contexts set_accounts] in H.
  destruct (existsb (fun p => bytes_eqb (fst p) id) (d_contexts d1)) eqn:X; [discriminate|]. cbn [obind] in H.
  apply (f_equal (fun o => match o with Ret p => p | _ => (slate, d2) end)) in H. apply pair_equal_spec in H. destruct H as (Hs & Hd).
  assert (LC : LoadSlateContext id d = None).
  { unfold LoadSlateContext. destruct (find (fun p => bytes_eqb (fst p) id) (d_contexts d)) as [p|] eqn:F; auto.
    apply find_some in F. assert (Y : existsb (fun p => bytes_eqb (fst p) id) (d_contexts d1) = true) by (apply existsb_exists; exists p; exact F).
    congruence. }
  assert (TX : BuildWalletTx (d_nextTx d) inputs change (mkSlate id STANDARD_SENT a (mkFee 0 fee)
      (fold_left AddOutput (map c_commitment change) (fold_left AddInput (map c_commitment inputs) []))) = tx).
  { unfold tx. rewrite Hs. reflexivity. }
  rewrite TX in Hd. rewrite Hs in Hd.
  subst d2. subst slate. repeat split; auto.
Qed.

Lemma plan_spec coins sc inputs a fee n :
  plan_send sort ndebug coins (match sc_amount sc with Some a => a | None => 0 end) (sc_feeBase sc)
    (sc_numOutputs sc) (match sc_amount sc with Some _ => false | None => true end) (sc_strategy sc) (sc_inputs sc)
    = Ret (inputs, a, fee, n) -> affordable sc coins ->
  chosen_from inputs coins /\ n = changes_wanted sc /\ requested sc coins a /\ total inputs < W64 /\
  a + fee <= total inputs /\ (n = 0 -> a + fee = total inputs) /\
  (n <> 0 -> fee = fee_of (sc_feeBase sc) (length inputs) (1 + n) 1) /\
  fee_of (sc_feeBase sc) (length inputs) (1 + n) 1 <= fee.
Proof.
  unfold plan_send, affordable, requested, changes_wanted. destruct (sc_amount sc) as [x|].
  - intros H (NA & NO & OV). rewrite (N.mod_small (1 + sc_numOutputs sc)) in H by lia.
    destruct (SelectCoinsToSpend sort coins x (sc_feeBase sc) (sc_strategy sc) (sc_inputs sc) (1 + sc_numOutputs sc) 1) as [sel| |] eqn:Q; try discriminate.
    cbn [obind] in H.
    pose proof (select_chosen sort Ss _ _ _ _ _ _ _ _ Q) as CH. pose proof (chosen_length coins sel CH) as (LL & TT).
    pose proof (select_covers sort Ss _ _ _ _ _ _ _ _ NA OV Q) as CV. unfold covers in CV.
    destruct OV as (O1 & O2 & O3). pose proof (fee_mono (sc_feeBase sc) _ _ (1 + sc_numOutputs sc) 1 LL) as FM.
    assert (FE : CalculateFee (sc_feeBase sc) (nlen sel) (1 + sc_numOutputs sc) 1 = fee_of (sc_feeBase sc) (length sel) (1 + sc_numOutputs sc) 1).
    { unfold nlen. apply fee_exact; lia. }
    rewrite FE, sum64_exact in H by lia. rewrite sub64_small in H by lia.
    destruct (sc_numOutputs sc =? 0) eqn:Z.
    + apply N.eqb_eq in Z. destruct (negb ndebug && _); [discriminate|].
      injection H as <- <- <- <-. rewrite Z in *. repeat split; auto; try lia.
    + apply N.eqb_neq in Z. injection H as <- <- <- <-. repeat split; auto; try lia.
  - intros H (O1 & O2 & O3). change ((1 + 0) mod W8) with 1 in H. cbn [obind] in H.
    assert (FE : CalculateFee (sc_feeBase sc) (nlen coins) 1 1 = fee_of (sc_feeBase sc) (length coins) 1 1).
    { unfold nlen. apply fee_exact; lia. }
    rewrite FE, sum64_exact in H by lia. rewrite (sub64_small (total coins) (fee_of (sc_feeBase sc) (length coins) 1 1)) in H by lia.
    rewrite sub64_small in H by lia. change (0 =? 0) with true in H. cbv iota in H.
    destruct (negb ndebug && _); [discriminate|]. injection H as <- <- <- <-.
    repeat split; auto; try lia. { exists []. rewrite app_nil_r. reflexivity. } change (1 + 0) with 1. lia.
Qed.

(** a send, step by step *)
Lemma send_inv nv d id sc slate d2 : Send sort env min_confs commit_of ndebug nv d id sc = (Ret slate, d2) ->
  exists coins d1 inputs a fee n,
    GetAllAvailableCoins env min_confs nv d = (Ret coins, d1) /\
    plan_send sort ndebug coins (match sc_amount sc with Some a => a | None => 0 end) (sc_feeBase sc)
    (sc_numOutputs sc) (match sc_amount sc with Some _ => false | None => true end) (sc_strategy sc) (sc_inputs sc)
    = Ret (inputs, a, fee, n) /\ Build commit_of d1 id a fee n inputs = Ret (slate, d2).
Proof.
  unfold Send. destruct (GetAllAvailableCoins env min_confs nv d) as (oc & d1) eqn:G.
  destruct oc as [coins| |]; cbn [obind]; try discriminate.
  destruct (plan_send _ _ _ _ _ _ _ _ _) as [[[[inputs a] fee] n]| |] eqn:P; cbn [obind]; try discriminate.
  destruct (Build _ _ _ _ _ _ _) as [[s dd]| |] eqn:B; try discriminate.
  intros [= <- <-]. exists coins, d1, inputs, a, fee, n. auto.
Qed.
Lemma available_accounts nv d coins d1 : GetAllAvailableCoins env min_confs nv d = (coins, d1) ->
  exists outs, (d1 = d \/ Refresh nv d = (outs, d1)).
Proof.
  unfold GetAllAvailableCoins. destruct (n_tip nv); [|intros [= _ <-]; exists []; auto].
  destruct (Refresh nv d) as (outs & d') eqn:R. intros [= _ <-]. exists outs. auto.
Qed.
Lemma add_new_accounts new : forall d, d_accounts (snd (add_new_outputs new d)) = d_accounts d.
Proof.
  induction new as [|o new IH]; intros d; cbn [add_new_outputs]; [reflexivity|].
  cbn [GetNextTransactionId]. match goal with |- context [add_new_outputs new ?x] => specialize (IH x); destruct (add_new_outputs new x) as ((os & ts) & d3) end.
  cbn [snd] in *. rewrite IH. reflexivity.
Qed.
Lemma refresh_loop_accounts nv outs : forall d, d_accounts (snd (refresh_loop nv outs d)) = d_accounts d.
Proof.
  induction outs as [|o outs IH]; intros d; cbn [refresh_loop]; [reflexivity|].
  destruct (refresh_output nv o).
  - match goal with |- context [refresh_loop nv outs ?x] => specialize (IH x); destruct (refresh_loop nv outs x) end. cbn [snd] in *. rewrite IH. reflexivity.
  - specialize (IH d). destruct (refresh_loop nv outs d). exact IH.
Qed.
Lemma add_opts_accounts l : forall d, d_accounts (fold_left add_tx_opt l d) = d_accounts d.
Proof. induction l as [|u l IH]; intros d; cbn [fold_left]; auto. rewrite IH. destruct u; reflexivity. Qed.
Lemma refresh_accounts nv d : d_accounts (snd (Refresh nv d)) = d_accounts d.
Proof.
  unfold Refresh. destruct (_ <? _); [reflexivity|].
  pose proof (add_new_accounts (FindNewOutputs nv (d_outputs d)) d) as A. destruct (add_new_outputs _ d) as ((os & ts) & d1). cbn [snd] in A.
  unfold RefreshOutputs. pose proof (refresh_loop_accounts nv (d_outputs d ++ os) d1) as B.
  destruct (refresh_loop nv (d_outputs d ++ os) d1) as (outs & d2). cbn [snd] in *.
  unfold RefreshTransactions. rewrite !add_opts_accounts. cbn [set_refresh d_accounts]. congruence.
Qed.

Lemma chosen_coms inputs coins : chosen_from inputs coins -> NoDup (coms coins) -> NoDup (coms inputs) /\ (forall c, In c inputs -> In c coins).
Proof.
  intros (rest & P) N. split.
  - assert (N2 : NoDup (coms (inputs ++ rest))).
    { unfold coms in *. apply (Permutation_NoDup (l := map c_commitment coins)); auto. apply Permutation_map. symmetry. exact P. }
    unfold coms in N2. rewrite map_app in N2. clear - N2. induction inputs as [|i l IH]; cbn in *; constructor; inversion N2; subst; auto.
    intros H. apply H1. apply in_or_app. auto.
  - intros c H. rewrite <- P. apply in_or_app. auto.
Qed.

Lemma send_conserves nv d r id sc slate d2 coins d1 :
  d_accounts d = at_index r ->
  GetAllAvailableCoins env min_confs nv d = (Ret coins, d1) -> NoDup (coms coins) -> affordable sc coins ->
  (forall p a, In p (new_paths r (changes_wanted sc)) -> ~ In (commit_of p a) (coms coins)) ->
  Send sort env min_confs commit_of ndebug nv d id sc = (Ret slate, d2) ->
  exists inputs change tx,
    chosen_from inputs coins /\ length change = N.to_nat (changes_wanted sc) /\
    In tx (d_txs d2) /\ w_type tx = SENDING_STARTED /\ w_slate tx = Some id /\
    w_tx tx = Some (map c_commitment inputs, map c_commitment change) /\
    s_id slate = id /\ requested sc coins (s_amount slate) /\
    total inputs = s_amount slate + m_fee (s_fee slate) + total change /\
    w_debited tx = total inputs /\ w_credited tx = total change /\ total inputs < W64 /\
    fee_of (sc_feeBase sc) (length inputs) (1 + changes_wanted sc) 1 <= m_fee (s_fee slate) /\
    (changes_wanted sc <> 0 -> m_fee (s_fee slate) = fee_of (sc_feeBase sc) (length inputs) (1 + changes_wanted sc) 1) /\
    (forall c, In c inputs -> In (SetStatus LOCKED c) (d_outputs d2)) /\
    (forall c, In c change -> In c (d_outputs d2) /\ c_status c = NO_CONFIRMATIONS /\ c_tx c = Some (w_id tx)).
Proof.
  intros EA G N AF FR H. apply send_inv in H. destruct H as (coins' & d1' & inputs & a & fee & n & G' & P & B).
  rewrite G in G'. injection G' as <- <-.
  destruct (plan_spec _ _ _ _ _ _ P AF) as (CH & -> & RQ & TI & LE & ZE & FE & FG).
  assert (EA1 : d_accounts d1 = at_index r).
  { destruct (available_accounts _ _ _ _ G) as (outs & [->|R]); auto. rewrite <- EA. rewrite <- (refresh_accounts nv d), R. reflexivity. }
  destruct (build_spec _ _ _ _ _ _ _ _ _ EA1 B) as (B1 & B2 & B3 & B4 & B5 & B6 & B7 & _).
  assert (SB : sub64 (sum64 inputs) (add64 a fee) = total inputs - (a + fee)).
  { rewrite sum64_exact by lia. rewrite add64_small by lia. apply sub64_small; lia. }
  rewrite SB in *.
  set (change := if 0 <? changes_wanted sc then change_coins r (total inputs - (a + fee)) (d_nextTx d1) (changes_wanted sc) else []) in *.
  destruct (chosen_coms _ _ CH N) as (NI & II).
  assert (CT : total change = total inputs - (a + fee)).
  { unfold change. destruct (N.ltb_spec 0 (changes_wanted sc)) as [Q|Q].
    - unfold change_coins. apply change_total; auto; [lia|]. apply new_paths_length.
    - rewrite ZE by lia. rewrite total_nil. lia. }
  assert (CN : NoDup (coms change)).
  { unfold change. destruct (0 <? _); [|constructor]. apply change_coins_nodup.
    unfold changes_wanted, affordable in *. destruct (sc_amount sc); lia. }
  assert (CD : forall c, In c (coms change) -> ~ In c (coms inputs)).
  { intros c Hc Hi. unfold change in Hc. destruct (0 <? _); [|destruct Hc]. apply change_coins_coms in Hc.
    destruct Hc as (p & x & Ip & ->). apply (FR p x Ip). unfold coms in *. apply in_map_iff in Hi. destruct Hi as (o & <- & Io).
    apply in_map. auto. }
  exists inputs, change, (BuildWalletTx (d_nextTx d1) inputs change slate).
  assert (LN : coms (map (SetStatus LOCKED) inputs) = coms inputs) by (unfold coms; rewrite map_map; reflexivity).
  repeat split; auto.
  - unfold change. destruct (N.ltb_spec 0 (changes_wanted sc)) as [Q|Q].
    + unfold change_coins. rewrite map_length. apply combine_length_eq. apply new_paths_length.
    + cbn. lia.
  - rewrite B7. unfold save_tx. destruct (existsb _ _) eqn:X.
    + apply existsb_exists in X. destruct X as (u & Iu & Eu). apply in_map_iff. exists u. rewrite Eu. auto.
    + apply in_or_app. right. left. reflexivity.
  - cbn. rewrite B1. reflexivity.
  - rewrite B3. exact RQ.
  - rewrite B3, B4. cbn [m_fee]. rewrite CT. lia.
  - cbn [BuildWalletTx w_debited]. apply sum64_exact. lia.
  - cbn [BuildWalletTx w_credited]. rewrite sum64_exact; lia.
  - rewrite B4. exact FG.
  - rewrite B4. exact FE.
  - intros c Hc. rewrite B6. apply save_outputs_in; [rewrite LN; exact NI|]. left. apply in_map. exact Hc.
  - rewrite B6. apply save_outputs_in; [rewrite LN; exact NI|]. right. split.
    + apply save_outputs_in; auto.
    + rewrite LN. apply CD. unfold coms. apply in_map. assumption.
  - unfold change in H. destruct (0 <? _); [|destruct H]. apply change_coins_status in H. apply H.
  - unfold change in H. destruct (0 <? _); [|destruct H]. apply change_coins_status in H. apply H.
Qed.
End Send.

(** *** balance *)
Section Balance.
Variable env : Environment.
Variable min_confs : N.
Definition cat_sum (f : OutputDataEntity -> bool) (l : list OutputDataEntity) : N := total (filter f l).
Definition is_locked o := status_eqb (c_status o) LOCKED.
Definition is_unconfirmed o := status_eqb (c_status o) NO_CONFIRMATIONS.
Definition is_immature h o := status_eqb (c_status o) SPENDABLE && IsOutputImmature env min_confs (c_features o) (height_or_0 o) h.
Definition is_spendable h o := status_eqb (c_status o) SPENDABLE && negb (IsOutputImmature env min_confs (c_features o) (height_or_0 o) h).
Lemma filter_total_le f l : total (filter f l) <= total l.
Proof. induction l as [|o l IH]; cbn [filter]; [lia|]. destruct (f o); rewrite ?total_cons; lia. Qed.
Lemma step_fields h b o : let r := balance_step env min_confs h b o in
  bal_height r = bal_height b /\
  bal_unconfirmed r = (if is_unconfirmed o then add64 (bal_unconfirmed b) (c_amount o) else bal_unconfirmed b) /\
  bal_immature r = (if is_immature h o then add64 (bal_immature b) (c_amount o) else bal_immature b) /\
  bal_locked r = (if is_locked o then add64 (bal_locked b) (c_amount o) else bal_locked b) /\
  bal_spendable r = (if is_spendable h o then add64 (bal_spendable b) (c_amount o) else bal_spendable b).
Proof.
  unfold balance_step, is_unconfirmed, is_immature, is_locked, is_spendable.
  destruct (c_status o); cbn [status_eqb andb]; auto.
  destruct (IsOutputImmature env min_confs (c_features o) (height_or_0 o) h); cbn; auto.
Qed.
Lemma balance_fold h l : forall b, bal_unconfirmed b < W64 -> bal_immature b < W64 -> bal_locked b < W64 -> bal_spendable b < W64 ->
  let r := fold_left (balance_step env min_confs h) l b in
  bal_height r = bal_height b /\
  bal_unconfirmed r = (bal_unconfirmed b + cat_sum is_unconfirmed l) mod W64 /\
  bal_immature r = (bal_immature b + cat_sum (is_immature h) l) mod W64 /\
  bal_locked r = (bal_locked b + cat_sum is_locked l) mod W64 /\
  bal_spendable r = (bal_spendable b + cat_sum (is_spendable h) l) mod W64.
Proof.
  induction l as [|o l IH]; intros b B1 B2 B3 B4; cbn [fold_left].
  - unfold cat_sum. cbn [filter]. rewrite total_nil, !N.add_0_r, !N.mod_small by assumption. auto.
  - assert (M : forall x, x mod W64 < W64) by (intros; apply N.mod_lt; lia).
    assert (A : forall x y z, (add64 x y + z) mod W64 = (x + (y + z)) mod W64).
    { intros x y z. unfold add64. rewrite N.add_mod_idemp_l by lia. f_equal. lia. }
    destruct (step_fields h b o) as (F1 & F2 & F3 & F4 & F5).
    destruct (IH (balance_step env min_confs h b o)) as (I1 & I2 & I3 & I4 & I5).
    + rewrite F2. destruct (is_unconfirmed o); [apply M|assumption].
    + rewrite F3. destruct (is_immature h o); [apply M|assumption].
    + rewrite F4. destruct (is_locked o); [apply M|assumption].
    + rewrite F5. destruct (is_spendable h o); [apply M|assumption].
    + rewrite I1, I2, I3, I4, I5, F1, F2, F3, F4, F5. unfold cat_sum. cbn [filter].
      destruct (is_unconfirmed o), (is_immature h o), (is_locked o), (is_spendable h o); rewrite ?total_cons, ?A; auto.
Qed.
Lemma balance_spec h l : let b := balance_of env min_confs l h in
  bal_height b = h /\ bal_unconfirmed b = cat_sum is_unconfirmed l mod W64 /\ bal_immature b = cat_sum (is_immature h) l mod W64 /\
  bal_locked b = cat_sum is_locked l mod W64 /\ bal_spendable b = cat_sum (is_spendable h) l mod W64.
Proof.
  intros b. unfold b, balance_of. destruct (balance_fold h l (mkBalance h 0 0 0 0)) as (A & B & C & D & E); try exact eq_refl.
  cbn [bal_height bal_unconfirmed bal_immature bal_locked bal_spendable] in *. rewrite !N.add_0_l in *. auto.
Qed.
Lemma sum_of_filter (P : OutputDataEntity -> Prop) f l : (forall o, In o l -> (f o = true <-> P o)) -> sum_of P l (cat_sum f l).
Proof.
  unfold cat_sum. induction l as [|o l IH]; intros H; cbn [filter]; [constructor|].
  assert (H' : forall x, In x l -> (f x = true <-> P x)) by (intros x X; apply H; right; exact X).
  destruct (f o) eqn:F; rewrite ?total_cons; constructor; auto.
  - apply H; [left; reflexivity|exact F].
  - intros X. apply H in X; [congruence|left; reflexivity].
Qed.
Lemma immature_spec h o : match c_height o with Some x => x | None => 0 end + min_confs < W64 ->
  IsOutputImmature env min_confs (c_features o) (height_or_0 o) h = true <-> ~ mature env min_confs h o.
Proof.
  unfold IsOutputImmature, mature, height_or_0, GetMaxCoinbaseHeight, coinbase_maturity, COINBASE_MATURITY. intros L.
  destruct (c_features o =? COINBASE_OUTPUT).
  - destruct env; lia.
  - rewrite add64_small by exact L. lia.
Qed.
Lemma partition l h : total l < W64 ->
  (forall o, In o l -> match c_height o with Some x => x | None => 0 end + min_confs < W64) ->
  let b := balance_of env min_confs l h in
  bal_height b = h /\
  sum_of (counted_as env min_confs h Spendable) l (bal_spendable b) /\
  sum_of (counted_as env min_confs h Awaiting) l (bal_unconfirmed b) /\
  sum_of (counted_as env min_confs h Immature) l (bal_immature b) /\
  sum_of (counted_as env min_confs h Locked) l (bal_locked b) /\
  GetTotal b = bal_spendable b + bal_unconfirmed b + bal_immature b.
Proof.
  intros T HH b. destruct (balance_spec h l) as (A & B & C & D & E). fold b in A, B, C, D, E.
  assert (LE : forall f, cat_sum f l mod W64 = cat_sum f l).
  { intros f. apply N.mod_small. pose proof (filter_total_le f l). unfold cat_sum. lia. }
  rewrite LE in B, C, D, E.
  assert (ST : forall x y, status_eqb x y = true <-> x = y) by (intros x y; destruct x, y; split; (reflexivity || discriminate)).
  split; [exact A|]. rewrite B, C, D, E. repeat split.
  - apply sum_of_filter. intros o Io. unfold is_spendable, counted_as. rewrite andb_true_iff, negb_true_iff, ST.
    pose proof (immature_spec h o (HH o Io)) as Q.
    assert (DM : mature env min_confs h o \/ ~ mature env min_confs h o) by (unfold mature; destruct (_ =? _); lia).
    destruct (IsOutputImmature env min_confs (c_features o) (height_or_0 o) h); intuition congruence.
  - apply sum_of_filter. intros o _. apply ST.
  - apply sum_of_filter. intros o Io. unfold is_immature, counted_as. rewrite andb_true_iff, ST, (immature_spec h o (HH o Io)). reflexivity.
  - apply sum_of_filter. intros o _. apply ST.
  - unfold GetTotal. rewrite B, C, E. unfold cat_sum.
    assert (G : total (filter is_unconfirmed l) + total (filter (is_immature h) l) + total (filter (is_spendable h) l) <= total l).
    { clear. induction l as [|o l IH]; cbn [filter]; [cbn; lia|].
      unfold is_unconfirmed, is_immature, is_spendable in *.
      destruct (c_status o); cbn [status_eqb andb]; try destruct (IsOutputImmature env min_confs (c_features o) (height_or_0 o) h); cbn [negb]; rewrite ?total_cons; lia. }
    rewrite (add64_small (total _)) by lia. rewrite add64_small by lia. lia.
Qed.

End Balance.
