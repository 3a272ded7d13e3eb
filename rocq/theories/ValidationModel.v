(** Model of the validation of transaction bodies, transactions and blocks:
    src/Core/Validation/TxBodyValidator.cpp, TransactionValidator.cpp,
    include/Core/Validation/KernelSumValidator.h, KernelSignatureValidator.h,
    src/BlockChain/Validators/BlockValidator.cpp, src/Core/Models/TransactionBody.cpp (weight),
    include/Core/Models/TransactionBody.h (fees) and include/Core/Util/TransactionUtil.h.
    The libsecp256k1-zkp calls behind [Crypto] are section variables. *)
From Verif Require Import Base Bytes FileModel CodecModel ConsensusModel.
Local Open Scope N_scope.

(** include/Core/Models/TransactionOutput.h:52, TransactionKernel.h:65: bit tests on the
    feature byte. *)
Definition COINBASE_OUTPUT : N := 1.
Definition output_IsCoinbase (o : TransactionOutput) : bool := N.land (o_features o) COINBASE_OUTPUT =? COINBASE_OUTPUT.
Definition kernel_IsCoinbase (k : TransactionKernel) : bool := N.land (k_features k) COINBASE_KERNEL =? COINBASE_KERNEL.

(** include/Core/Models/TransactionInput.h:43. *)
Definition input_eqb (a b : TransactionInput) : bool :=
  (i_features a =? i_features b) && bytes_eqb (i_commitment a) (i_commitment b).

(** include/Core/Models/TransactionBody.h:72-78. *)
Definition CalcFee (b : TransactionBody) : N := fold_left (fun sum k => add64 sum (m_fee (k_fee k))) (b_kernels b) 0.
(** TransactionBody.h:80-90. *)
Definition GetFeeShift (b : TransactionBody) : N :=
  fold_left (fun fee_shift k => if fee_shift <? m_shift (k_fee k) then m_shift (k_fee k) else fee_shift) (b_kernels b) 0.

(** An [int64_t] obtained from a [uint64_t]. *)
Definition i64 (n : N) : Z := if n <? 9223372036854775808 then Z.of_N n else (Z.of_N n - 18446744073709551616)%Z.

(** src/Core/Models/TransactionBody.cpp:150-161. *)
Definition CalcWeight (env : Environment) (b : TransactionBody) (block_height : N) : outcome N :=
  let num_inputs := nlen (b_inputs b) in
  let num_outputs := nlen (b_outputs b) in
  let num_kernels := nlen (b_kernels b) in
  if GetHeaderVersion env block_height <? 5
  then CalculateWeightV4 (i64 num_inputs) (i64 num_outputs) (i64 num_kernels)
  else Ret (CalculateWeightV5 num_inputs num_outputs num_kernels).

(** src/Core/Models/Transaction.cpp:80-86. *)
Definition FeeMeetsMinimum (env : Environment) (fee_base : N) (t : Transaction) (block_height : N) : outcome bool :=
  let* weight := CalcWeight env (t_body t) block_height in
  let min_fee := mul64 fee_base weight in
  let* wanted := shl64 min_fee (GetFeeShift (t_body t)) in
  Ret (wanted <=? CalcFee (t_body t)).

Section Validation.
Variable Blake2b : bytes -> bytes.
(** Crypto::VerifyRangeProofs, VerifyKernelSignatures(signatures, commitments, messages). *)
Variable VerifyRangeProofs : list (bytes * bytes) -> bool.
Variable VerifyKernelSignatures : list bytes -> list bytes -> list bytes -> bool.
(** Crypto::AddCommitments(positive, negative), CommitTransparent, CommitBlinded. *)
Variable AddCommitments : list bytes -> list bytes -> outcome bytes.
Variable CommitTransparent : N -> bytes.
Variable CommitBlinded : N -> bytes -> bytes.
Variable env : Environment.

(** The hash of a value, as the number its big-endian bytes denote (Consensus.h:51 compares
    the 32 bytes lexicographically). *)
Definition hashes_of {A} (hash : A -> bytes) (l : list A) : list N := map (fun x => be_value (hash x)) l.

(** TxBodyValidator.cpp:33-37, 39-43: no two neighbours are equal. *)
Fixpoint no_equal_neighbours {A} (eqb : A -> A -> bool) (l : list A) : bool :=
  match l with
  | [] => true
  | [_] => true
  | x :: (y :: _) as rest => if eqb y x then false else no_equal_neighbours eqb rest
  end.
(** include/Core/Models/TransactionOutput.h:43: outputs are compared by hash. *)
Definition output_eqb (a b : TransactionOutput) : bool := bytes_eqb (output_hash Blake2b a) (output_hash Blake2b b).

(** TxBodyValidator.cpp:24-44. *)
Definition VerifySorted (b : TransactionBody) : outcome unit :=
  if negb (IsSorted (hashes_of (input_hash Blake2b) (b_inputs b)) &&
           IsSorted (hashes_of (output_hash Blake2b) (b_outputs b)) &&
           IsSorted (hashes_of (kernel_hash Blake2b) (b_kernels b))) then Throw
  else if negb (no_equal_neighbours input_eqb (b_inputs b)) then Throw
  else if negb (no_equal_neighbours output_eqb (b_outputs b)) then Throw
  else Ret tt.
(** TxBodyValidator.cpp:47-67. *)
Definition VerifyCutThrough (b : TransactionBody) : outcome unit :=
  if existsb (fun i => existsb (fun o => bytes_eqb (o_commitment o) (i_commitment i)) (b_outputs b)) (b_inputs b)
  then Throw else Ret tt.
(** include/Core/Validation/KernelSignatureValidator.h:17-59. *)
Definition BatchVerify (kernels : list TransactionKernel) : bool :=
  match kernels with
  | [] => true
  | _ => VerifyKernelSignatures (map k_excessSignature kernels) (map k_excessCommitment kernels)
           (map (fun k => Blake2b (SignatureMessage (k_features k) (k_fee k) (k_lockHeight k))) kernels)
  end.
(** TxBodyValidator.cpp:13-22, 69-80. *)
Definition TxBody_Validate (b : TransactionBody) : outcome unit :=
  let* _ := VerifySorted b in
  let* _ := VerifyCutThrough b in
  if negb (VerifyRangeProofs (map (fun o => (o_commitment o, o_rangeProof o)) (b_outputs b))) then Throw
  else if negb (BatchVerify (b_kernels b)) then Throw
  else Ret tt.

(** include/Core/Validation/KernelSumValidator.h:86-98. *)
Definition AddKernelOffset (kernelSum totalKernelOffset : bytes) : outcome bytes :=
  if bytes_eqb totalKernelOffset (repeat 0 32) then Ret kernelSum
  else AddCommitments [kernelSum; CommitBlinded 0 totalKernelOffset] [].
(** KernelSumValidator.h:35-83. *)
Definition ValidateKernelSums (inputs outputs kernels : list bytes) (overage : Z) (kernelOffset : bytes)
  (blockSums : option BlockSums) : outcome BlockSums :=
  let outputCommitments := outputs ++ (if (0 <? overage)%Z then [CommitTransparent (u64 overage)] else []) in
  let inputCommitments := inputs ++ (if (0 <? overage)%Z then [] else
                                     if (overage <? 0)%Z then [CommitTransparent (u64 (- overage))] else []) in
  let outputCommitments := outputCommitments ++ (match blockSums with Some s => [m_outputSum s] | None => [] end) in
  let* utxoSum := AddCommitments outputCommitments inputCommitments in
  let kernelCommitments := kernels ++ (match blockSums with Some s => [m_kernelSum s] | None => [] end) in
  let* kernelSum := AddCommitments kernelCommitments [] in
  let* kernelSumPlusOffset := AddKernelOffset kernelSum kernelOffset in
  if negb (bytes_eqb utxoSum kernelSumPlusOffset) then Throw
  else Ret (mkSums utxoSum kernelSum).
(** KernelSumValidator.h:16-33. *)
Definition ValidateBodySums (b : TransactionBody) (overage : Z) (kernelOffset : bytes) (blockSums : option BlockSums) : outcome BlockSums :=
  ValidateKernelSums (map i_commitment (b_inputs b)) (map o_commitment (b_outputs b))
    (map k_excessCommitment (b_kernels b)) overage kernelOffset blockSums.

(** TransactionValidator.cpp:27-37. *)
Definition Tx_ValidateWeight (b : TransactionBody) (block_height : N) : outcome unit :=
  let* weight := CalcWeight env b block_height in
  if MAX_BLOCK_WEIGHT <? add64 weight (OUTPUT_WEIGHT + KERNEL_WEIGHT) then Throw else Ret tt.
(** TransactionValidator.cpp:39-60. *)
Definition Tx_ValidateFeatures (b : TransactionBody) : outcome unit :=
  if existsb output_IsCoinbase (b_outputs b) then Throw
  else if existsb kernel_IsCoinbase (b_kernels b) then Throw
  else Ret tt.
(** TransactionValidator.cpp:63-82: the overage is accumulated in [int64_t]; a signed overflow
    is undefined. *)
Fixpoint sum_overage (kernels : list TransactionKernel) (overage : Z) : outcome Z :=
  match kernels with
  | [] => Ret overage
  | k :: rest => let s := (overage + i64 (m_fee (k_fee k)))%Z in
                 if in_i64 s then sum_overage rest s else Fault
  end.
Definition Tx_ValidateKernelSums (t : Transaction) : outcome unit :=
  let* overage := sum_overage (b_kernels (t_body t)) 0%Z in
  let* _ := ValidateBodySums (t_body t) overage (t_offset t) None in
  Ret tt.
(** TransactionValidator.cpp:12-25. *)
Definition Transaction_Validate (t : Transaction) (block_height : N) : outcome unit :=
  let* _ := Tx_ValidateWeight (t_body t) block_height in
  let* _ := TxBody_Validate (t_body t) in
  let* _ := Tx_ValidateFeatures (t_body t) in
  Tx_ValidateKernelSums t.

(** src/BlockChain/Validators/BlockValidator.cpp:44-49. *)
Definition Block_VerifyWeight (blk : FullBlock) : outcome unit :=
  let* weight := CalcWeight env (fb_body blk) (h_height (fb_header blk)) in
  if MAX_BLOCK_WEIGHT <? weight then Throw else Ret tt.
(** BlockValidator.cpp:53-66. *)
Definition VerifyKernelLockHeights (blk : FullBlock) : outcome unit :=
  if existsb (fun k => h_height (fb_header blk) <? k_lockHeight k) (b_kernels (fb_body blk)) then Throw else Ret tt.
(** BlockValidator.cpp:70-106. *)
Definition VerifyCoinbase (blk : FullBlock) : outcome unit :=
  let coinbaseCommitments := map o_commitment (filter output_IsCoinbase (b_outputs (fb_body blk))) in
  let coinbaseKernelExcesses := map k_excessCommitment (filter kernel_IsCoinbase (b_kernels (fb_body blk))) in
  let reward := add64 REWARD (CalcFee (fb_body blk)) in
  let* outputAdjustedSum := AddCommitments coinbaseCommitments [CommitTransparent reward] in
  let* kernelSum := AddCommitments coinbaseKernelExcesses [] in
  if negb (bytes_eqb kernelSum outputAdjustedSum) then Throw else Ret tt.
(** BlockValidator.cpp:15-30, for a block not yet marked as validated (the mark is set at the
    end, so a marked block passed this check before). *)
Definition VerifySelfConsistent (blk : FullBlock) : outcome unit :=
  let* _ := Block_VerifyWeight blk in
  let* _ := VerifyKernelLockHeights blk in
  let* _ := TxBody_Validate (fb_body blk) in
  VerifyCoinbase blk.
(** src/BlockChain/Processors/BlockProcessor.cpp:202-219: the checks of a block that follows a
    block with the given sums ([0 - Consensus::REWARD] is unsigned, converted to [int64_t]). *)
Definition ValidateBlockSums (previousSums : BlockSums) (blk : FullBlock) : outcome BlockSums :=
  ValidateBodySums (fb_body blk) (i64 (sub64 0 REWARD)) (h_totalKernelOffset (fb_header blk)) (Some previousSums).

(** BlockProcessor.cpp:184-225, repeated: the blocks of a chain, each checked against the sums
    stored for the one before it. Roots, sizes and the spending of existing outputs are checked
    elsewhere (TxHashSet). *)
Fixpoint accept_blocks (sums : BlockSums) (blocks : list FullBlock) : outcome BlockSums :=
  match blocks with
  | [] => Ret sums
  | blk :: rest =>
      let* _ := VerifySelfConsistent blk in
      let* sums' := ValidateBlockSums sums blk in
      accept_blocks sums' rest
  end.
(** src/BlockChain/ChainState.cpp:56-59: the sums stored for the genesis block. *)
Definition GenesisSums (output kernel : bytes) : outcome BlockSums :=
  let* outputSum := AddCommitments [output] [CommitTransparent REWARD] in
  Ret (mkSums outputSum kernel).
(** src/PMMR/TxHashSetValidator.cpp:200-233: the sums of a downloaded state, [outputs] the
    unspent commitments and [kernels] the excesses it contains. *)
Definition ValidateStateSums (outputs kernels : list bytes) (height : N) (offset : bytes) : outcome BlockSums :=
  ValidateKernelSums [] outputs kernels (i64 (sub64 0 (mul64 REWARD (add64 1 height)))) offset None.

(** * include/Core/Util/TransactionUtil.h *)
(** TransactionUtil.h:11-50. *)
Definition PerformCutThrough (inputs : list TransactionInput) (outputs : list TransactionOutput) :
  list TransactionInput * list TransactionOutput :=
  (filter (fun i => negb (existsb (fun o => bytes_eqb (o_commitment o) (i_commitment i)) outputs)) inputs,
   filter (fun o => negb (existsb (fun i => bytes_eqb (i_commitment i) (o_commitment o)) inputs)) outputs).
(** Crypto::AddBlindingFactors. *)
Variable AddBlindingFactors : list bytes -> list bytes -> outcome bytes.
(** TransactionUtil.h:57-109. An empty list fails the assertion. *)
Definition Aggregate (transactions : list Transaction) : outcome Transaction :=
  match transactions with
  | [] => Fault
  | [t] => Ret t
  | _ =>
      let inputs := flat_map (fun t => b_inputs (t_body t)) transactions in
      let outputs := flat_map (fun t => b_outputs (t_body t)) transactions in
      let kernels := flat_map (fun t => b_kernels (t_body t)) transactions in
      let '(inputs, outputs) := PerformCutThrough inputs outputs in
      let* totalKernelOffset := AddBlindingFactors (map t_offset transactions) [] in
      Ret (mkTx totalKernelOffset (Body_sorted Blake2b inputs outputs kernels))
  end.
End Validation.
