(** Model of src/PoW (HeaderInfo.h, DifficultyLoader.cpp, DifficultyCalculator.cpp,
    PoWValidator.cpp) and of src/BlockChain/Validators/BlockHeaderValidator.cpp.
    External calls are section variables: the header lookup of the block database, the siphash
    keys of a header (Blake2b of its pre-proof bytes), the root of the header MMR and the clock. *)
From Verif Require Import Base Bytes CodecModel U128Model ConsensusModel CuckooModel.
Local Open Scope N_scope.

(** src/PoW/HeaderInfo.h:32-43. *)
Record HeaderInfo := mkInfo { hi_timestamp : N; hi_difficulty : N; hi_secondaryScaling : N; hi_secondary : bool }.
(** HeaderInfo.h:16-19. *)
Definition FromTimeAndDiff (timestamp difficulty : N) : HeaderInfo :=
  mkInfo timestamp difficulty INITIAL_GRAPH_WEIGHT true.
(** HeaderInfo.h:22-25. *)
Definition FromDiffAndScaling (difficulty secondaryScaling : N) : HeaderInfo :=
  mkInfo 1 difficulty (secondaryScaling mod W32) true.

(** include/Core/Models/ProofOfWork.h:37. *)
Definition IsSecondary (p : ProofOfWork) : bool := m_edgeBits p =? SECOND_POW_EDGE_BITS.

(** DifficultyLoader.cpp:13. *)
Definition numBlocksNeeded : nat := 61.

(** DifficultyLoader.cpp:63-67: [k] simulated blocks. *)
Fixpoint pad_loop (k : nat) (last_ts last_ts_delta last_diff : N) : list HeaderInfo :=
  match k with
  | O => []
  | S k' => let last_ts := last_ts - N.min last_ts last_ts_delta in
            FromTimeAndDiff last_ts last_diff :: pad_loop k' last_ts last_ts_delta last_diff
  end.
(** DifficultyLoader.cpp:44-73. Reading element 0 of an empty vector is undefined. *)
Definition PadDifficultyData (difficultyData : list HeaderInfo) : outcome (list HeaderInfo) :=
  if (length difficultyData <? numBlocksNeeded)%nat then
    match difficultyData with
    | [] => Fault
    | first :: rest =>
        let last_ts_delta := match rest with
                             | [] => BLOCK_TIME_SEC
                             | second :: _ => sub64 (hi_timestamp first) (hi_timestamp second)
                             end in
        let last_diff := hi_difficulty first in
        let last_ts := hi_timestamp (last difficultyData first) in
        Ret (rev (difficultyData ++ pad_loop (numBlocksNeeded - length difficultyData) last_ts last_ts_delta last_diff))
    end
  else Ret (rev difficultyData).

(** DifficultyCalculator.cpp:90-102. *)
Definition ARCount (difficultyData : list HeaderInfo) : N :=
  mul64 (fold_left (fun numSecondary i => if hi_secondary i then add64 numSecondary 1 else numSecondary) difficultyData 0) 100.
(** DifficultyCalculator.cpp:104-113. *)
Definition ScalingFactorSum (difficultyData : list HeaderInfo) : N :=
  fold_left (fun s i => add64 s (hi_secondaryScaling i)) difficultyData 0.
(** DifficultyCalculator.cpp:116-134. *)
Definition SecondaryPOWScaling (height : N) (difficultyData : list HeaderInfo) : N :=
  let scale_sum := ScalingFactorSum difficultyData in
  let target_pct := SecondaryPOWRatio height in
  let target_count := mul64 DIFFICULTY_ADJUST_WINDOW target_pct in
  let actual := Damp (ARCount difficultyData) target_count AR_SCALE_DAMP_FACTOR in
  let adj_count := Clamp actual target_count CLAMP_FACTOR in
  let scale := mul64 scale_sum target_pct / N.max 1 adj_count in
  N.max MIN_AR_SCALE scale mod W32.

Section Validators.
(** [IBlockDB::GetBlockHeader]; [None] is [nullptr]. *)
Variable GetBlockHeader : bytes -> option BlockHeader.
(** [Global::GetEnv]. *)
Variable env : Environment.

(** DifficultyLoader.cpp:17-36. *)
Fixpoint load_loop (n : nat) (pHeader : option BlockHeader) : list HeaderInfo :=
  match n, pHeader with
  | S n', Some h =>
      let pPrev := GetBlockHeader (h_previousBlockHash h) in
      let difficulty := match pPrev with
                        | Some p => sub64 (h_totalDifficulty h) (h_totalDifficulty p)
                        | None => h_totalDifficulty h
                        end in
      mkInfo (u64 (h_timestamp h)) difficulty (h_scalingDifficulty h) (IsSecondary (h_proofOfWork h))
        :: load_loop n' pPrev
  | _, _ => []
  end.
(** DifficultyLoader.cpp:11-39. *)
Definition LoadDifficultyData (header : BlockHeader) : outcome (list HeaderInfo) :=
  PadDifficultyData (load_loop numBlocksNeeded (GetBlockHeader (h_previousBlockHash header))).

(** DifficultyCalculator.cpp:31-55. The subtraction of timestamps is signed; a zero
    denominator is undefined. *)
Definition NextWTEMA (header : BlockHeader) : outcome HeaderInfo :=
  match GetBlockHeader (h_previousBlockHash header) with
  | None => Throw
  | Some lastHeader =>
      match GetBlockHeader (h_previousBlockHash lastHeader) with
      | None => Throw
      | Some prevHeader =>
          let dt := (h_timestamp lastHeader - h_timestamp prevHeader)%Z in
          if negb (in_i64 dt) then Fault else
          let last_block_time := u64 dt in
          let last_diff := sub64 (h_totalDifficulty lastHeader) (h_totalDifficulty prevHeader) in
          let denominator := add64 (WTEMA_HALF_LIFE - BLOCK_TIME_SEC) last_block_time in
          if denominator =? 0 then Fault else
          let next_diff := mul64 last_diff WTEMA_HALF_LIFE / denominator in
          Ret (FromDiffAndScaling (N.max (min_wtema_graph_weight env) next_diff) 0)
      end
  end.

(** DifficultyCalculator.cpp:57-87. The data always has 61 elements here. *)
Definition NextDMA (header : BlockHeader) : outcome HeaderInfo :=
  let* difficultyData := LoadDifficultyData header in
  let skipFirst := tl difficultyData in
  let sec_pow_scaling := SecondaryPOWScaling (h_height header) skipFirst in
  let d0 := mkInfo 0 0 0 false in
  let ts_delta := sub64 (hi_timestamp (nth (N.to_nat DIFFICULTY_ADJUST_WINDOW) difficultyData d0))
                        (hi_timestamp (nth 0 difficultyData d0)) in
  let difficultySum := fold_left (fun s i => add64 s (hi_difficulty i)) skipFirst 0 in
  let actual := Damp ts_delta BLOCK_TIME_WINDOW DMA_DAMP_FACTOR in
  let adj_ts := Clamp actual BLOCK_TIME_WINDOW CLAMP_FACTOR in
  let difficulty := N.max MIN_DMA_DIFFICULTY (mul64 difficultySum BLOCK_TIME_SEC / adj_ts) in
  Ret (FromDiffAndScaling difficulty sec_pow_scaling).

(** DifficultyCalculator.cpp:22-29. *)
Definition CalculateNextDifficulty (header : BlockHeader) : outcome HeaderInfo :=
  if h_version header <? 5 then NextDMA header else NextWTEMA header.

(** PoWValidator.cpp:57-90. *)
Definition PoW_GetMaximumDifficulty (header : BlockHeader) : outcome N :=
  let proofOfWork := h_proofOfWork header in
  let* scalingDifficulty :=
    if m_edgeBits proofOfWork =? SECOND_POW_EDGE_BITS then Ret (h_scalingDifficulty header)
    else ScalingDifficulty (m_edgeBits proofOfWork) in
  GetMaximumDifficulty scalingDifficulty (firstn 8 (pow_hash proofOfWork)).

(** src/PoW/Cuckatoo.cpp etc., [Validate(header)]: the siphash keys of the header. *)
Variable pow_keys : BlockHeader -> sip.

(** PoWValidator.cpp:12-54. A verifier that is still running after 85 rounds of its loop never
    stops (Cuckarood only); an endless loop without effects is undefined behaviour. *)
Definition PoW_IsPoWValid (header previousHeader : BlockHeader) : outcome bool :=
  if h_totalDifficulty header <=? h_totalDifficulty previousHeader then Ret false else
  let* max_difficulty := PoW_GetMaximumDifficulty header in
  let targetDifficulty := sub64 (h_totalDifficulty header) (h_totalDifficulty previousHeader) in
  if max_difficulty <? targetDifficulty then Ret false else
  let* nextHeaderInfo := CalculateNextDifficulty header in
  if negb (targetDifficulty =? hi_difficulty nextHeaderInfo) then Ret false else
  if negb (h_scalingDifficulty header =? hi_secondaryScaling nextHeaderInfo) then Ret false else
  let edgeBits := m_edgeBits (h_proofOfWork header) in
  match Validate (variant_for (h_version header) edgeBits) 85 (pow_keys header) edgeBits
                 (m_proofNonces (h_proofOfWork header)) with
  | Some b => Ret b
  | None => Fault
  end.

(** [HeaderMMR::Root(lastHeight)]. *)
Variable HeaderMMR_Root : N -> outcome bytes.
(** [std::chrono::system_clock::now()], in ticks. *)
Variable now : Z.

(** BlockHeaderValidator.cpp:48-55. *)
Definition IsPoWValid (header prev_header : BlockHeader) : outcome bool :=
  match env with
  | AUTOMATED_TESTING => Ret true
  | _ => PoW_IsPoWValid header prev_header
  end.

(** BlockHeaderValidator.cpp:11-46. *)
Definition ValidateHeader (header prev_header : BlockHeader) : outcome unit :=
  if negb (h_height header =? add64 (h_height prev_header) 1) then Throw else
  let* maxBlockTime := GetMaxBlockTime now in
  if (maxBlockTime <? h_timestamp header)%Z then Throw else
  let validHeaderVersion := GetHeaderVersion env (h_height header) in
  if negb (h_version header =? validHeaderVersion) then Throw else
  if (h_timestamp header <=? h_timestamp prev_header)%Z then Throw else
  let* validPoW := IsPoWValid header prev_header in
  if negb validPoW then Throw else
  let* root := HeaderMMR_Root (sub64 (h_height header) 1) in
  if negb (bytes_eqb root (h_previousRoot header)) then Throw else
  Ret tt.
End Validators.
