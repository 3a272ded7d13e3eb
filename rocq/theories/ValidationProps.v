(** C21, C27, C29, C46: what an accepted transaction, block or state guarantees. *)
From Coq Require Import Permutation.
From Verif Require Import Base Bytes FileModel CodecModel ConsensusModel
  ValidationModel ValidationSpec ValidationProofs.
Local Open Scope Z_scope.

(** * C27: weight. The bound on the counts is far above what a vector can hold. *)
Definition countable (b : TransactionBody) : Prop :=
  zlen (b_inputs b) < 2 ^ 58 /\ zlen (b_outputs b) < 2 ^ 58 /\ zlen (b_kernels b) < 2 ^ 58.
Definition weight_at (env : Environment) (height : N) (b : TransactionBody) : Z :=
  if (GetHeaderVersion env height <? 5)%N then weight_before_v5 b else weight_since_v5 b.

Theorem C27_weight_exact env b height : countable b ->
  exists w, CalcWeight env b height = Ret w /\ Z.of_N w = weight_at env height b.
Proof.
  intros [H1 [H2 H3]]. unfold weight_at. destruct (GetHeaderVersion env height <? 5)%N eqn:E.
  - assert (D : exists w, CalcWeight env b height = Ret w).
    { unfold CalcWeight. rewrite E. unfold CalculateWeightV4.
      rewrite <- (zlen_nlen (b_inputs b)), <- (zlen_nlen (b_outputs b)), <- (zlen_nlen (b_kernels b)) in *.
      set (i := nlen (b_inputs b)) in *. set (o := nlen (b_outputs b)) in *. set (k := nlen (b_kernels b)) in *.
      clearbody i o k. change (2 ^ 58) with 288230376151711744 in *. unfold i64.
      replace (i <? 9223372036854775808)%N with true by lia.
      replace (o <? 9223372036854775808)%N with true by lia. replace (k <? 9223372036854775808)%N with true by lia.
      cbv zeta. match goal with |- context [if ?c then _ else _] => replace c with true by (unfold in_i64; lia) end.
      eexists. reflexivity. }
    destruct D as [w D]. exists w. split; [exact D|]. eapply weight_v4_exact; eauto; lia.
  - assert (D : exists w, CalcWeight env b height = Ret w).
    { unfold CalcWeight. rewrite E. eexists. reflexivity. }
    destruct D as [w D]. exists w. split; [exact D|]. eapply weight_v5_exact; eauto; lia.
Qed.
Print Assumptions C27_weight_exact.

Theorem C27_block_weight Blake2b VRP VKS AddC CT env blk : countable (fb_body blk) ->
  VerifySelfConsistent Blake2b VRP VKS AddC CT env blk = Ret tt ->
  weight_at env (h_height (fb_header blk)) (fb_body blk) <= max_weight.
Proof.
  intros HC H. apply block_validated in H. destruct H as [H _]. unfold Block_VerifyWeight in H.
  destruct (C27_weight_exact env _ (h_height (fb_header blk)) HC) as [w [E1 E2]]. rewrite E1 in H. cbn [obind] in H.
  destruct (MAX_BLOCK_WEIGHT <? w)%N eqn:E; [discriminate|]. unfold MAX_BLOCK_WEIGHT, max_weight in *. lia.
Qed.
Print Assumptions C27_block_weight.

(** A transaction must leave room for the coinbase output and kernel. *)
Theorem C27_transaction_weight Blake2b VRP VKS AddC CT CB env t height : countable (t_body t) ->
  Transaction_Validate Blake2b VRP VKS AddC CT CB env t height = Ret tt ->
  weight_at env height (t_body t) + 21 + 3 <= max_weight.
Proof.
  intros HC H. apply tx_validated in H. destruct H as [H _]. unfold Tx_ValidateWeight in H.
  destruct (C27_weight_exact env _ height HC) as [w [E1 E2]]. rewrite E1 in H. cbn [obind] in H.
  assert (W : Z.of_N w < 2 ^ 63).
  { rewrite E2. unfold weight_at, weight_since_v5, weight_before_v5. destruct HC as [H1 [H2 H3]].
    assert (P1 := zlen_nonneg (b_inputs (t_body t))). assert (P2 := zlen_nonneg (b_outputs (t_body t))).
    assert (P3 := zlen_nonneg (b_kernels (t_body t))).
    change (2 ^ 58) with 288230376151711744 in *. change (2 ^ 63) with 9223372036854775808.
    clear -H1 H2 H3 P1 P2 P3. destruct (GetHeaderVersion env height <? 5)%N; lia. }
  destruct (MAX_BLOCK_WEIGHT <? _)%N eqn:E; [discriminate|]. unfold MAX_BLOCK_WEIGHT, max_weight, OUTPUT_WEIGHT, KERNEL_WEIGHT in *.
  change (2 ^ 63) with 9223372036854775808 in W. rewrite add64_small in E by lia. lia.
Qed.
Print Assumptions C27_transaction_weight.

(** Since the fourth fork the weight bounds every count. *)
Theorem C27_counts_bounded b : weight_since_v5 b <= max_weight ->
  zlen (b_inputs b) <= 40000 /\ zlen (b_outputs b) <= 1904 /\ zlen (b_kernels b) <= 13333.
Proof.
  unfold weight_since_v5, max_weight. intros H.
  assert (P1 := zlen_nonneg (b_inputs b)). assert (P2 := zlen_nonneg (b_outputs b)). assert (P3 := zlen_nonneg (b_kernels b)). lia.
Qed.
(** Before it, inputs pay for outputs: no number of outputs is too large for the rule. *)
Theorem C27_old_rule_unbounded env height n : (GetHeaderVersion env height < 5)%N -> (n < 2 ^ 50)%nat ->
  exists b, length (b_outputs b) = n /\ CalcWeight env b height = Ret 1%N.
Proof.
  intros Hv Hn. exists (mkBody (repeat (mkInput 0 []) (4 * n)) (repeat (mkOutput 0 [] []) n) []).
  split; [apply repeat_length|]. unfold CalcWeight. replace (_ <? 5)%N with true by lia.
  cbn [b_inputs b_outputs b_kernels]. unfold nlen. rewrite !repeat_length. cbn [length].
  assert (Hz : Z.of_nat n < 2 ^ 50). { apply Nat2Z.inj_lt in Hn. rewrite Nat2Z.inj_pow in Hn. exact Hn. }
  change (2 ^ 50) with 1125899906842624 in Hz. clear Hn. unfold i64.
  replace (N.of_nat (4 * n) <? 9223372036854775808)%N with true by lia.
  replace (N.of_nat n <? 9223372036854775808)%N with true by lia. cbn [N.of_nat]. change (0 <? 9223372036854775808)%N with true.
  unfold CalculateWeightV4. cbv zeta.
  match goal with |- context [if ?c then _ else _] => replace c with true by (unfold in_i64; lia) end.
  f_equal. unfold u64. rewrite Z.mod_small by lia. lia.
Qed.
Print Assumptions C27_old_rule_unbounded.
Example C27_example : CalcWeight MAINNET (mkBody [mkInput 0 []; mkInput 0 []] [mkOutput 0 [] []] [mkKernel 0 (mkFee 0 1) 0 [] []]) 1048320 = Ret 26%N /\
  CalcWeight MAINNET (mkBody [mkInput 0 []; mkInput 0 []] [mkOutput 0 [] []] [mkKernel 0 (mkFee 0 1) 0 [] []]) 1048319 = Ret 3%N.
Proof. split; reflexivity. Qed.

(** * C21: no coins are created *)
(** Fees as they come off the wire: 40 bits. *)
Definition wire_fees (b : TransactionBody) : Prop := Forall (fun k => (m_fee (k_fee k) < 2 ^ 40)%N) (b_kernels b).

Theorem C21_transaction_conserves_value opens AddC CT CB VRP VKS Blake2b env value t height :
  sound_crypto opens AddC CT CB VRP VKS ->
  Transaction_Validate Blake2b VRP VKS AddC CT CB env t height = Ret tt ->
  wire_fees (t_body t) -> countable (t_body t) ->
  values opens value (input_commitments (t_body t)) -> values opens value (output_commitments (t_body t)) ->
  total value (input_commitments (t_body t)) = total value (output_commitments (t_body t)) + total_fees (t_body t)
  \/ binding_broken opens.
Proof.
  intros S H Hf [H1 [H2 _]] Vi Vo. eapply tx_conserves; eauto.
  - eapply Z.lt_trans; [exact H1|reflexivity].
  - eapply Z.lt_trans; [exact H2|reflexivity].
Qed.
Print Assumptions C21_transaction_conserves_value.

(** A chain: the genesis block made one output holding one reward; every later block was
    accepted on top of the sums of the one before. Whatever value each output was made with,
    the outputs that remain when the spent ones are removed hold one reward per block. *)
Theorem C21_total_value opens AddC CT CB VRP VKS Blake2b env value genesis_output genesis_excess genesis_sums blocks final unspent :
  sound_crypto opens AddC CT CB VRP VKS ->
  GenesisSums AddC CT genesis_output genesis_excess = Ret genesis_sums ->
  value genesis_output = block_reward -> (exists x, opens genesis_excess 0 x) ->
  accept_blocks Blake2b VRP VKS AddC CT CB env genesis_sums blocks = Ret final ->
  Forall (fun blk => countable (fb_body blk)) blocks ->
  values opens value (genesis_output :: flat_map (fun blk => output_commitments (fb_body blk)) blocks) ->
  Permutation (genesis_output :: flat_map (fun blk => output_commitments (fb_body blk)) blocks)
              (flat_map (fun blk => input_commitments (fb_body blk)) blocks ++ unspent) ->
  total value unspent = block_reward * (1 + zlen blocks) \/ binding_broken opens.
Proof.
  intros S HG Hv Hx HA HC HV HP.
  unfold GenesisSums in HG. destruct (AddC _ _) as [os| |] eqn:EA; cbn [obind] in HG; try discriminate.
  injection HG as <-.
  destruct (HV genesis_output (or_introl eq_refl)) as [_ [r Hr]].
  assert (O := sc_add _ _ _ _ _ _ S _ _ _ [(value genesis_output, r)] [(Z.of_N REWARD, 0)] EA
    ltac:(constructor; [exact Hr|constructor]) ltac:(constructor; [apply (sc_transparent _ _ _ _ _ _ S); reflexivity|constructor])).
  cbn [map fst snd] in O. rewrite Hv in O.
  change (sumZ [block_reward] - sumZ [Z.of_N REWARD]) with 0 in O.
  destruct (chain_conserves opens AddC CT CB VRP VKS S Blake2b env value blocks _ _ HA) as [E|E].
  - eexists. exact O.
  - destruct Hx as [x Hx]. intros e [<-|[]]. exists x. exact Hx.
  - eapply Forall_impl; [|exact HC]. intros blk [H1 [H2 _]]. split; (eapply Z.lt_trans; [eassumption|reflexivity]).
  - intros c Hc. apply HV. right. exact Hc.
  - intros c Hc. apply HV. eapply Permutation_in; [symmetry; exact HP|]. apply in_or_app. left. exact Hc.
  - left. assert (T := total_perm value _ _ HP). rewrite total_cons, total_app in T.
    unfold chain_outputs, chain_inputs in E. lia.
  - right. exact E.
Qed.
Print Assumptions C21_total_value.

(** The value function the theorem above speaks about always exists. *)
Theorem C21_outputs_have_values opens AddC CT CB VRP VKS Blake2b env sums blocks final :
  sound_crypto opens AddC CT CB VRP VKS ->
  accept_blocks Blake2b VRP VKS AddC CT CB env sums blocks = Ret final ->
  exists value, values opens value (flat_map (fun blk => output_commitments (fb_body blk)) blocks).
Proof.
  intros S H. apply values_exist. revert sums H. induction blocks as [|blk blocks IH]; intros sums H c Hc; [destruct Hc|].
  cbn [accept_blocks] in H. destruct (VerifySelfConsistent _ _ _ _ _ _ blk) as [[]| |] eqn:ES; cbn [obind] in H; try discriminate.
  destruct (ValidateBlockSums _ _ _ _ _) as [sums'| |] eqn:EB; cbn [obind] in H; try discriminate.
  cbn [flat_map] in Hc. apply in_app_or in Hc. destruct Hc as [Hc|Hc].
  - apply block_validated in ES. destruct ES as [_ [_ [ES _]]]. eapply ranged; eauto.
  - eapply IH; eauto.
Qed.
Print Assumptions C21_outputs_have_values.

(** The outputs marked as coinbase hold exactly the reward and the fees. *)
Theorem C21_coinbase_exact opens AddC CT CB VRP VKS Blake2b env value blk :
  sound_crypto opens AddC CT CB VRP VKS ->
  VerifySelfConsistent Blake2b VRP VKS AddC CT env blk = Ret tt ->
  wire_fees (fb_body blk) -> zlen (b_kernels (fb_body blk)) < 2 ^ 22 -> countable (fb_body blk) ->
  values opens value (output_commitments (fb_body blk)) ->
  total value (map o_commitment (filter output_IsCoinbase (b_outputs (fb_body blk)))) = block_reward + total_fees (fb_body blk)
  \/ binding_broken opens.
Proof.
  intros S H Hf Hk [_ [H2 _]] V. eapply coinbase_exact; eauto. eapply Z.lt_trans; [exact H2|reflexivity].
Qed.
Print Assumptions C21_coinbase_exact.

(** A downloaded state: its unspent outputs hold one reward per block. *)
Theorem C21_downloaded_state opens AddC CT CB VRP VKS value outputs kernels height offset s :
  sound_crypto opens AddC CT CB VRP VKS ->
  ValidateStateSums AddC CT CB outputs kernels height offset = Ret s ->
  (height < 150000000)%N -> zlen outputs < 2 ^ 64 -> values opens value outputs ->
  (forall e, In e kernels -> exists x, opens e 0 x) ->
  total value outputs = block_reward * (1 + Z.of_N height) \/ binding_broken opens.
Proof. intros S H Hh L V K. eapply state_exact; eauto. Qed.
Print Assumptions C21_downloaded_state.

(** ** An instance in which every assumption holds and binding is never broken: the commitment
    is the value modulo 2^256. *)
Definition order : Z := 2 ^ 256.
Definition ideal_opens (c : bytes) (v r : Z) : Prop := Z.of_N (be_value c) mod order = v mod order.
Definition ideal_sum (l : list bytes) : Z := sumZ (map (fun c => Z.of_N (be_value c)) l).
Definition ideal_add (pos neg : list bytes) : outcome bytes := Ret (be_bytes 33 (Z.to_N ((ideal_sum pos - ideal_sum neg) mod order))).
Definition coin (v : N) : bytes := be_bytes 33 v.
Definition ideal_blinded (v : N) (r : bytes) : bytes := coin v.
Definition ideal_range (l : list (bytes * bytes)) : bool := forallb (fun p => (Z.of_N (be_value (fst p)) mod order <? 2 ^ 64)) l.
Definition ideal_signed (sigs excesses msgs : list bytes) : bool := forallb (fun e => (Z.of_N (be_value e) mod order =? 0)) excesses.

Lemma ideal_all cs os : open_all ideal_opens cs os -> ideal_sum cs mod order = sumZ (map fst os) mod order.
Proof.
  induction 1 as [|c o cs os H _ IH]; [reflexivity|]. unfold ideal_sum, sumZ in *. cbn [map fold_right].
  unfold ideal_opens in H. rewrite Z.add_mod, H, IH, <- Z.add_mod by discriminate. reflexivity.
Qed.
Lemma coin_value v : (v < W64)%N -> be_value (coin v) = v.
Proof.
  intros H. apply be_value_be_bytes. eapply N.lt_trans; [exact H|]. reflexivity.
Qed.
Theorem C21_ideal_crypto : sound_crypto ideal_opens ideal_add coin ideal_blinded ideal_range ideal_signed /\ ~ binding_broken ideal_opens.
Proof.
  split.
  - split.
    + intros pos neg c po no H Hp Hn. apply Ret_inj in H. subst c. unfold ideal_opens.
      assert (B := Z.mod_pos_bound (ideal_sum pos - ideal_sum neg) order eq_refl).
      rewrite be_value_be_bytes.
      2: { apply N2Z.inj_lt. rewrite Z2N.id by lia. eapply Z.lt_trans; [apply B|]. vm_compute. reflexivity. }
      rewrite Z2N.id by lia. rewrite Z.mod_mod by discriminate.
      rewrite Zminus_mod, (ideal_all _ _ Hp), (ideal_all _ _ Hn), <- Zminus_mod. reflexivity.
    + intros v H. unfold ideal_opens. rewrite coin_value by exact H. reflexivity.
    + intros r. exists 0. reflexivity.
    + intros l c p H Hin. unfold ideal_range in H. rewrite forallb_forall in H. apply H in Hin. cbn [fst] in Hin.
      exists (Z.of_N (be_value c) mod order), 0. split; [unfold ideal_opens; rewrite Z.mod_mod by discriminate; reflexivity|].
      apply Z.ltb_lt in Hin. split; [apply Z.mod_pos_bound; reflexivity|exact Hin].
    + intros s e m x H Hin. unfold ideal_signed in H. rewrite forallb_forall in H. apply H in Hin.
      exists 0. unfold ideal_opens. apply Z.eqb_eq in Hin. rewrite Hin. reflexivity.
  - intros [c [v1 [r1 [v2 [r2 [H1 [H2 [H3 H4]]]]]]]]. unfold ideal_opens in *. rewrite H1 in H2.
    apply H3. assert (D : (v1 - v2) mod order = 0) by (rewrite Zminus_mod, H2, Z.sub_diag; reflexivity).
    apply Z.mod_divide in D; [|discriminate]. destruct D as [k D].
    assert (k = 0).
    { destruct (Z.eq_dec k 0) as [E|E]; [exact E|]. exfalso. rewrite D in H4. rewrite Z.abs_mul in H4.
      assert (1 <= Z.abs k) by lia.
      assert (order <= Z.abs k * Z.abs order).
      { change (Z.abs order) with order. rewrite <- (Z.mul_1_l order) at 1. apply Z.mul_le_mono_nonneg_r; [discriminate|exact H]. }
      assert (2 ^ 200 < order) by reflexivity. apply (Z.lt_irrefl order). eapply Z.le_lt_trans; [eassumption|]. eapply Z.lt_trans; eassumption. }
    subst k. lia.
Qed.
Print Assumptions C21_ideal_crypto.

(** A chain of two blocks in it: 60 coins from genesis are split, a fee is paid. *)
Definition toy_hash (x : bytes) : bytes := be_bytes 32 (be_value x mod (2 ^ 256 - 189))%N.
Definition zero33 : bytes := coin 0.
Definition ex_header (height : N) : BlockHeader :=
  mkHeader 1 height 0 [] [] [] [] [] (repeat 0%N 32) 0 0 0 0 0 (mkPoW 31 [] []).
Definition ex_block1 : FullBlock := mkBlock (ex_header 1) (Body_sorted toy_hash [] [mkOutput 1 (coin 60000000000) []] [mkKernel 1 (mkFee 0 0) 0 zero33 []]).
Definition ex_block2 : FullBlock := mkBlock (ex_header 2) (Body_sorted toy_hash
  [mkInput 1 (coin 60000000000)]
  [mkOutput 0 (coin 50000000000) []; mkOutput 0 (coin 9999000000) []; mkOutput 1 (coin 60001000000) []]
  [mkKernel 0 (mkFee 0 1000000) 0 zero33 []; mkKernel 1 (mkFee 0 0) 0 zero33 []]).
Definition sums_of (o : outcome BlockSums) : BlockSums := match o with Ret s => s | _ => mkSums [] [] end.
Example C21_example :
  exists s0 s2, GenesisSums ideal_add coin (coin 60000000000) zero33 = Ret s0 /\
    accept_blocks toy_hash ideal_range ideal_signed ideal_add coin ideal_blinded MAINNET s0 [ex_block1; ex_block2] = Ret s2 /\
    total (fun c => Z.of_N (be_value c)) (map coin [60000000000; 50000000000; 9999000000; 60001000000]%N) = block_reward * 3.
Proof.
  exists (sums_of (GenesisSums ideal_add coin (coin 60000000000) zero33)).
  exists (sums_of (accept_blocks toy_hash ideal_range ideal_signed ideal_add coin ideal_blinded MAINNET
    (sums_of (GenesisSums ideal_add coin (coin 60000000000) zero33)) [ex_block1; ex_block2])).
  split; [|split]; vm_compute; reflexivity.
Qed.

(** ** A transaction read from JSON: the fee has 64 bits and the validator reads it as a signed
    number, so a fee of 2^64 - x works as a fee of minus x. *)
Definition minting_tx (x : N) : Transaction :=
  mkTx (repeat 0%N 32) (mkBody [mkInput 0 (coin 10)] [mkOutput 0 (coin (10 + x)) []] [mkKernel 0 (Fee_FromJSON (W64 - x)) 0 zero33 []]).
Theorem C21_json_fee_refuted :
  exists t, let b := t_body t in
    (exists json, (json < W64)%N /\ map k_fee (b_kernels b) = [Fee_FromJSON json]) /\
    Transaction_Validate toy_hash ideal_range ideal_signed ideal_add coin ideal_blinded MAINNET t 1048320 = Ret tt /\
    FeeMeetsMinimum MAINNET 500000 t 1048320 = Ret true /\
    total (fun c => Z.of_N (be_value c)) (output_commitments b) = total (fun c => Z.of_N (be_value c)) (input_commitments b) + 60000000000.
Proof.
  exists (minting_tx 60000000000). cbv zeta. split; [|vm_compute; repeat split; reflexivity].
  exists (W64 - 60000000000)%N. split; reflexivity.
Qed.
Print Assumptions C21_json_fee_refuted.

(** * C46: rules of bodies *)
Theorem C46_no_commitment_on_both_sides Blake2b VRP VKS b :
  TxBody_Validate Blake2b VRP VKS b = Ret tt ->
  forall c, In c (input_commitments b) -> ~ In c (output_commitments b).
Proof.
  intros H c H1 H2. apply body_validated in H. destruct H as [_ [H _]]. eapply cut_through_ok; eauto.
Qed.
Print Assumptions C46_no_commitment_on_both_sides.

(** Inputs are distinct when their feature byte follows from the commitment, as it does for
    every input read with protocol version 3. *)
Theorem C46_inputs_distinct_partial Blake2b VRP VKS b :
  (forall x, length (Blake2b x) = 32%nat /\ is_bytes (Blake2b x)) ->
  TxBody_Validate Blake2b VRP VKS b = Ret tt ->
  (forall i j, In i (b_inputs b) -> In j (b_inputs b) -> i_commitment i = i_commitment j -> i_features i = i_features j) ->
  NoDup (input_commitments b) \/ collision Blake2b.
Proof. intros HB H Hf. apply body_validated in H. destruct H as [H _]. eapply inputs_distinct; eauto. Qed.
Print Assumptions C46_inputs_distinct_partial.

Theorem C46_outputs_distinct_partial Blake2b VRP VKS b :
  (forall x, length (Blake2b x) = 32%nat /\ is_bytes (Blake2b x)) ->
  TxBody_Validate Blake2b VRP VKS b = Ret tt -> Forall (fun o => (o_features o < 256)%N) (b_outputs b) ->
  NoDup (map (fun o => (o_features o, o_commitment o)) (b_outputs b)) \/ collision Blake2b.
Proof. intros HB H Hf. apply body_validated in H. destruct H as [H _]. eapply outputs_distinct; eauto. Qed.
Print Assumptions C46_outputs_distinct_partial.

(** In a transaction, where no output may be marked as coinbase, the commitments of the
    outputs are distinct. *)
Theorem C46_transaction_outputs_distinct Blake2b VRP VKS AddC CT CB env t height :
  (forall x, length (Blake2b x) = 32%nat /\ is_bytes (Blake2b x)) ->
  Transaction_Validate Blake2b VRP VKS AddC CT CB env t height = Ret tt ->
  Forall (fun o => (o_features o = 0 \/ o_features o = 1)%N) (b_outputs (t_body t)) ->
  NoDup (output_commitments (t_body t)) \/ collision Blake2b.
Proof.
  intros HB H Hf. apply tx_validated in H. destruct H as [_ [H [HF _]]].
  assert (F0 : Forall (fun o => o_features o = 0%N) (b_outputs (t_body t))).
  { unfold Tx_ValidateFeatures in HF. destruct (existsb output_IsCoinbase _) eqn:E; [discriminate|].
    rewrite Forall_forall in *. intros o Ho. destruct (Hf o Ho) as [|E1]; [assumption|]. exfalso.
    apply not_true_iff_false in E. apply E, existsb_exists. exists o. split; [exact Ho|]. unfold output_IsCoinbase. rewrite E1. reflexivity. }
  destruct (C46_outputs_distinct_partial Blake2b VRP VKS (t_body t) HB H) as [D|D]; [|left|right; exact D].
  - eapply Forall_impl; [|exact F0]. cbn. intros o ->. reflexivity.
  - clear -D F0. unfold output_commitments. induction (b_outputs (t_body t)) as [|o l IH]; [constructor|].
    cbn [map] in *. inversion_clear D as [|? ? D1 D2]. inversion_clear F0 as [|? ? F1 F2]. constructor; [|apply IH; assumption].
    intros Hin. apply D1. apply in_map_iff in Hin. destruct Hin as [o' [E Ho']]. apply in_map_iff. exists o'. split; [|exact Ho'].
    rewrite Forall_forall in F2. rewrite (F2 _ Ho'), F1, E. reflexivity.
Qed.
Print Assumptions C46_transaction_outputs_distinct.

(** The same output can be spent twice in one accepted transaction: two inputs that differ in
    the feature byte only have the same hash and are not equal. *)
Definition double_spend : Transaction :=
  mkTx (repeat 0%N 32) (mkBody [mkInput 0 (coin 10); mkInput 1 (coin 10)] [mkOutput 0 (coin 19) []] [mkKernel 0 (mkFee 0 1) 0 zero33 []]).
Theorem C46_spent_once_refuted Blake2b : exists t,
  Transaction_Validate Blake2b ideal_range ideal_signed ideal_add coin ideal_blinded MAINNET t 1048320 = Ret tt /\
  ~ NoDup (input_commitments (t_body t)) /\ wire_fees (t_body t).
Proof.
  exists double_spend. split; [|split].
  - unfold Transaction_Validate, TxBody_Validate, VerifySorted, hashes_of. cbn [t_body double_spend b_inputs b_outputs b_kernels map IsSorted].
    unfold input_hash, Input_Serialize. change (1000 <? 3)%N with false. cbv iota.
    cbn [i_commitment]. rewrite N.ltb_irrefl. vm_compute. reflexivity.
  - intros H. inversion_clear H as [|? ? H1 _]. apply H1. left. reflexivity.
  - repeat constructor.
Qed.
Print Assumptions C46_spent_once_refuted.
(** The same commitment can be created twice in one accepted block, once marked as coinbase. *)
Theorem C46_created_once_refuted : exists blk,
  VerifySelfConsistent toy_hash ideal_range ideal_signed ideal_add coin MAINNET blk = Ret tt /\
  ~ NoDup (output_commitments (fb_body blk)) /\ zlen (b_outputs (fb_body blk)) = 2.
Proof.
  exists (mkBlock (ex_header 2) (Body_sorted toy_hash [mkInput 0 (coin 120000000002)]
    [mkOutput 0 (coin 60000000001) []; mkOutput 1 (coin 60000000001) []]
    [mkKernel 0 (mkFee 0 1) 0 zero33 []; mkKernel 1 (mkFee 0 0) 0 zero33 []])).
  split; [vm_compute; reflexivity|]. split; [|reflexivity].
  vm_compute. intros H. inversion_clear H as [|? ? H1 _]. apply H1. left. reflexivity.
Qed.
Print Assumptions C46_created_once_refuted.

(** An accepted transaction has no coinbase output and no coinbase kernel. *)
Theorem C46_transaction_has_no_coinbase Blake2b VRP VKS AddC CT CB env t height :
  Transaction_Validate Blake2b VRP VKS AddC CT CB env t height = Ret tt ->
  Forall (fun o => o_features o <> 1%N) (b_outputs (t_body t)) /\ Forall (fun k => k_features k <> 1%N) (b_kernels (t_body t)).
Proof.
  intros H. apply tx_validated in H. destruct H as [_ [_ [H _]]]. unfold Tx_ValidateFeatures in H.
  destruct (existsb output_IsCoinbase _) eqn:E1; [discriminate|]. destruct (existsb kernel_IsCoinbase _) eqn:E2; [discriminate|].
  apply not_true_iff_false in E1. apply not_true_iff_false in E2. rewrite existsb_exists in E1, E2.
  split; apply Forall_forall; intros x Hx E.
  - apply E1. exists x. split; [exact Hx|]. unfold output_IsCoinbase. rewrite E. reflexivity.
  - apply E2. exists x. split; [exact Hx|]. unfold kernel_IsCoinbase. rewrite E. reflexivity.
Qed.
Print Assumptions C46_transaction_has_no_coinbase.
(** Kernels of the first three kinds are counted as coinbase exactly when they are. *)
Theorem C46_coinbase_kernels_partial k : (k_features k <= 2)%N -> kernel_IsCoinbase k = (k_features k =? 1)%N.
Proof.
  intros H. unfold kernel_IsCoinbase, COINBASE_KERNEL. destruct (k_features k) as [|[[]|[]|]]; try reflexivity; exfalso; lia.
Qed.
Print Assumptions C46_coinbase_kernels_partial.
(** A kernel of the fourth kind (no recent duplicate, feature byte 3) counts as a coinbase
    kernel, so that no transaction containing one is ever accepted. *)
Theorem C46_nrd_is_not_coinbase_refuted Blake2b VRP VKS AddC CT CB env t height k :
  In k (b_kernels (t_body t)) -> k_features k = NO_RECENT_DUPLICATE ->
  Transaction_Validate Blake2b VRP VKS AddC CT CB env t height <> Ret tt.
Proof.
  intros Hk Hf H. apply tx_validated in H. destruct H as [_ [_ [H _]]]. unfold Tx_ValidateFeatures in H.
  destruct (existsb output_IsCoinbase _); [discriminate|]. destruct (existsb kernel_IsCoinbase _) eqn:E2; [discriminate|].
  apply not_true_iff_false in E2. apply E2, existsb_exists. exists k. split; [exact Hk|]. unfold kernel_IsCoinbase. rewrite Hf. reflexivity.
Qed.
Print Assumptions C46_nrd_is_not_coinbase_refuted.

(** * C29: cut-through and aggregation *)
(** Exactly the inputs and outputs whose commitment is on the other side are removed. *)
Theorem C29_cut_through_removes_pairs inputs outputs inputs' outputs' :
  PerformCutThrough inputs outputs = (inputs', outputs') ->
  (forall i, In i inputs' <-> In i inputs /\ ~ In (i_commitment i) (map o_commitment outputs)) /\
  (forall o, In o outputs' <-> In o outputs /\ ~ In (o_commitment o) (map i_commitment inputs)).
Proof. apply cut_through_kept. Qed.
Print Assumptions C29_cut_through_removes_pairs.
Theorem C29_no_commitment_on_both_sides inputs outputs inputs' outputs' c :
  PerformCutThrough inputs outputs = (inputs', outputs') ->
  In c (map i_commitment inputs') -> ~ In c (map o_commitment outputs').
Proof. intros H H1 H2. eapply cut_through_disjoint; eauto. Qed.
(** The balance is kept for every assignment of values, if each side has distinct commitments. *)
Theorem C29_balance_kept_partial value inputs outputs inputs' outputs' :
  PerformCutThrough inputs outputs = (inputs', outputs') ->
  NoDup (map i_commitment inputs) -> NoDup (map o_commitment outputs) ->
  total value (map o_commitment outputs') - total value (map i_commitment inputs') =
  total value (map o_commitment outputs) - total value (map i_commitment inputs).
Proof. apply cut_through_balance. Qed.
Print Assumptions C29_balance_kept_partial.
(** Otherwise one input takes every output with the same commitment with it. *)
Theorem C29_balance_kept_refuted : exists value inputs outputs inputs' outputs',
  PerformCutThrough inputs outputs = (inputs', outputs') /\
  total value (map o_commitment outputs') - total value (map i_commitment inputs') <>
  total value (map o_commitment outputs) - total value (map i_commitment inputs).
Proof.
  exists (fun _ => 5), [mkInput 0 (coin 5)], [mkOutput 0 (coin 5) []; mkOutput 0 (coin 5) []], [], [].
  split; [reflexivity|]. discriminate.
Qed.
Print Assumptions C29_balance_kept_refuted.

(** The aggregate keeps every kernel and sums the offsets. *)
Theorem C29_aggregate_keeps_kernels Blake2b AddBF txs t : Aggregate Blake2b AddBF txs = Ret t ->
  Permutation (flat_map (fun x => b_kernels (t_body x)) txs) (b_kernels (t_body t)) /\
  ((1 < length txs)%nat -> AddBF (map t_offset txs) [] = Ret (t_offset t)).
Proof.
  intros H. destruct txs as [|t1 [|t2 ts]]; [discriminate| |].
  - injection H as ->. cbn [flat_map]. rewrite app_nil_r. split; [apply Permutation_refl|]. cbn [length]. lia.
  - apply aggregate_many in H. destruct H as [ins [outs [_ [H1 [_ [_ H2]]]]]]. split; [exact H2|]. intros _. exact H1.
Qed.
Print Assumptions C29_aggregate_keeps_kernels.
Theorem C29_aggregate_inputs_outputs Blake2b AddBF txs t : Aggregate Blake2b AddBF txs = Ret t -> (1 < length txs)%nat ->
  let inputs := flat_map (fun x => b_inputs (t_body x)) txs in
  let outputs := flat_map (fun x => b_outputs (t_body x)) txs in
  (forall i, In i (b_inputs (t_body t)) <-> In i inputs /\ ~ In (i_commitment i) (map o_commitment outputs)) /\
  (forall o, In o (b_outputs (t_body t)) <-> In o outputs /\ ~ In (o_commitment o) (map i_commitment inputs)).
Proof.
  intros H HL. destruct txs as [|t1 [|t2 ts]]; cbn [length] in HL; try lia.
  apply aggregate_many in H. destruct H as [ins [outs [HC [_ [P1 [P2 _]]]]]]. cbv zeta.
  destruct (C29_cut_through_removes_pairs _ _ _ _ HC) as [K1 K2]. split.
  - intros i. rewrite <- K1. split; intros Hi; eapply Permutation_in; try eassumption. symmetry. exact P1.
  - intros o. rewrite <- K2. split; intros Hi; eapply Permutation_in; try eassumption. symmetry. exact P2.
Qed.
Print Assumptions C29_aggregate_inputs_outputs.
(** If every transaction pays for its outputs and fees, so does the aggregate. *)
Theorem C29_aggregate_balances_partial Blake2b AddBF value txs t : Aggregate Blake2b AddBF txs = Ret t ->
  NoDup (flat_map (fun x => input_commitments (t_body x)) txs) ->
  NoDup (flat_map (fun x => output_commitments (t_body x)) txs) ->
  (forall x, In x txs -> total value (input_commitments (t_body x)) = total value (output_commitments (t_body x)) + total_fees (t_body x)) ->
  total value (input_commitments (t_body t)) = total value (output_commitments (t_body t)) + total_fees (t_body t).
Proof.
  intros H N1 N2. assert (E : forall A B (key : B -> bytes) (part : A -> list B) l, flat_map (fun x => map key (part x)) l = map key (flat_map part l)).
  { intros A B key part l. induction l as [|x l IH]; [reflexivity|]. cbn [flat_map]. rewrite map_app, IH. reflexivity. }
  unfold input_commitments in N1. unfold output_commitments in N2. rewrite E in N1, N2. eapply aggregate_balance; eauto.
Qed.
Print Assumptions C29_aggregate_balances_partial.
Example C29_example :
  let t1 := mkTx [] (mkBody [mkInput 0 (coin 10)] [mkOutput 0 (coin 9) []] [mkKernel 0 (mkFee 0 1) 0 zero33 []]) in
  let t2 := mkTx [] (mkBody [mkInput 0 (coin 9)] [mkOutput 0 (coin 7) []] [mkKernel 0 (mkFee 0 2) 0 zero33 []]) in
  exists t, Aggregate toy_hash (fun _ _ => Ret []) [t1; t2] = Ret t /\ input_commitments (t_body t) = [coin 10] /\ output_commitments (t_body t) = [coin 7].
Proof.
  cbv zeta. match goal with |- exists t, ?a = Ret t /\ _ => exists (match a with Ret t => t | _ => minting_tx 0 end) end.
  split; [|split]; vm_compute; reflexivity.
Qed.
