(** Model of include/Consensus.h: weights, heights, times, difficulty constants, hard forks,
    and the future-time limit.  [uint64_t] values are [N] below 2^64 with explicit wrap,
    [int64_t] values are [Z].  [HOURS]/[DAYS]/..., STATE_SYNC_THRESHOLD and the unused median
    constants are left out. *)
From Verif Require Import Base.
Local Open Scope N_scope.

(** include/Core/Enums/Environment.h:5-10. *)
Inductive Environment : Type := MAINNET | FLOONET | AUTOMATED_TESTING.

(** include/Consensus.h:35, in nanogrin. *)
Definition REWARD : N := 60000000000.

(** Consensus.h:67-73, 87. *)
Definition INPUT_WEIGHT : N := 1.
Definition OUTPUT_WEIGHT : N := 21.
Definition KERNEL_WEIGHT : N := 3.
Definition MAX_BLOCK_WEIGHT : N := 40000.

(** An [int64_t] reinterpreted as [uint64_t]. *)
Definition u64 (z : Z) : N := Z.to_N (z mod 18446744073709551616)%Z.
Definition in_i64 (z : Z) : bool := ((-9223372036854775808 <=? z) && (z <? 9223372036854775808))%Z.

(** Consensus.h:89-92: signed arithmetic, so the intermediate values must fit. *)
Definition CalculateWeightV4 (num_inputs num_outputs numKernels : Z) : outcome N :=
  let s := (- num_inputs + 4 * num_outputs + numKernels)%Z in
  if in_i64 num_inputs && in_i64 num_outputs && in_i64 numKernels &&
     in_i64 (- num_inputs)%Z && in_i64 (4 * num_outputs)%Z &&
     in_i64 (- num_inputs + 4 * num_outputs)%Z && in_i64 s
  then Ret (u64 (Z.max s 1)) else Fault.
(** Consensus.h:94-99. *)
Definition CalculateWeightV5 (num_inputs num_outputs num_kernels : N) : N :=
  add64 (add64 (mul64 num_inputs INPUT_WEIGHT) (mul64 num_outputs OUTPUT_WEIGHT))
        (mul64 num_kernels KERNEL_WEIGHT).

(** Consensus.h:112-132, 153, 175-178, 187, 197. *)
Definition BLOCK_TIME_SEC : N := 60.
Definition HOUR_HEIGHT : N := 60.
Definition DAY_HEIGHT : N := 1440.
Definition WEEK_HEIGHT : N := 10080.
Definition YEAR_HEIGHT : N := 524160.
Definition COINBASE_MATURITY : N := 1440.
Definition CUT_THROUGH_HORIZON : N := 10080.
Definition DIFFICULTY_ADJUST_WINDOW : N := 60.
Definition BLOCK_TIME_WINDOW : N := 3600.
Definition DEFAULT_FUTURE_TIME_LIMIT_SEC : Z := 300.
Definition WTEMA_HALF_LIFE : N := 14400.

(** Consensus.h:134-141. *)
Definition GetMaxCoinbaseHeight (env : Environment) (blockHeight : N) : N :=
  match env with
  | AUTOMATED_TESTING => N.max blockHeight 25 - 25
  | _ => N.max blockHeight COINBASE_MATURITY - COINBASE_MATURITY
  end.
(** Consensus.h:155-158. *)
Definition GetHorizonHeight (blockHeight : N) : N :=
  N.max blockHeight CUT_THROUGH_HORIZON - CUT_THROUGH_HORIZON.

(** Ticks of [std::chrono::system_clock] per second: nanoseconds with the GNU library. *)
Definition ticks_per_second : Z := 1000000000.
(** Consensus.h:190-194. [currentTime] is the clock in ticks since the epoch; the result is
    returned in ticks too. *)
Definition GetMaxBlockTime (currentTime : Z) : outcome Z :=
  let maxBlockTime := (currentTime + DEFAULT_FUTURE_TIME_LIMIT_SEC * ticks_per_second)%Z in
  if in_i64 maxBlockTime then Ret maxBlockTime else Fault.

(** Consensus.h:213-234. *)
Definition DEFAULT_MIN_EDGE_BITS : N := 31.
Definition SECOND_POW_EDGE_BITS : N := 29.
Definition BASE_EDGE_BITS : N := 24.
Definition CLAMP_FACTOR : N := 2.
Definition DMA_DAMP_FACTOR : N := 3.
Definition AR_SCALE_DAMP_FACTOR : N := 13.
Definition MIN_AR_SCALE : N := 13.
Definition MIN_DMA_DIFFICULTY : N := 3.

(** [x << n] on [uint64_t]: a count of 64 or more is undefined. *)
Definition shl64 (x n : N) : outcome N :=
  if n <? 64 then Ret (N.shiftl x n mod W64) else Fault.
(** Consensus.h:239-249. [edge_bits - BASE_EDGE_BITS] is negative below 24 and becomes a huge
    shift count. *)
Definition GraphWeight (height edge_bits : N) : outcome N :=
  let xpr_edge_bits :=
    if (edge_bits =? 31) && (YEAR_HEIGHT <=? height)
    then edge_bits - N.min edge_bits (1 + (height - YEAR_HEIGHT) / WEEK_HEIGHT)
    else edge_bits in
  let* w := shl64 2 (sub64 edge_bits BASE_EDGE_BITS) in
  Ret (mul64 w xpr_edge_bits).
(** Consensus.h:252. *)
Definition INITIAL_GRAPH_WEIGHT : N := match GraphWeight 0 SECOND_POW_EDGE_BITS with Ret w => w mod W32 | _ => 0 end.
(** Consensus.h:255-264. *)
Definition Damp (actual goal damp_factor : N) : N :=
  add64 actual (mul64 (damp_factor - 1) goal) / damp_factor.
Definition Clamp (actual goal clamp_factor : N) : N :=
  N.max (goal / clamp_factor) (N.min actual (mul64 goal clamp_factor)).
(** Consensus.h:268-271. *)
Definition SecondaryPOWRatio (height : N) : N := 90 - N.min 90 (height / (2 * YEAR_HEIGHT / 90)).
(** Consensus.h:273-276. *)
Definition ScalingDifficulty (edgeBits : N) : outcome N :=
  let* w := shl64 2 (sub64 edgeBits BASE_EDGE_BITS) in
  Ret (mul64 w edgeBits).
(** Consensus.h:279-289. *)
Definition C32_GRAPH_WEIGHT : N := 2 * 2 ^ (32 - BASE_EDGE_BITS) * 32.
Definition min_wtema_graph_weight (env : Environment) : N :=
  match env with
  | MAINNET => C32_GRAPH_WEIGHT
  | _ => match GraphWeight 0 SECOND_POW_EDGE_BITS with Ret w => w | _ => 0 end
  end.

(** Consensus.h:299-305. *)
Definition HARD_FORK_INTERVAL : N := YEAR_HEIGHT / 2.
Definition FLOONET_FIRST_HARD_FORK : N := 185040.
Definition FLOONET_SECOND_HARD_FORK : N := 298080.
Definition FLOONET_THIRD_HARD_FORK : N := 552960.
Definition FLOONET_FOURTH_HARD_FORK : N := 642240.
(** Consensus.h:307-332. *)
Definition GetHeaderVersion (environment : Environment) (height : N) : N :=
  match environment with
  | FLOONET =>
      if height <? FLOONET_FIRST_HARD_FORK then 1
      else if height <? FLOONET_SECOND_HARD_FORK then 2
      else if height <? FLOONET_THIRD_HARD_FORK then 3
      else if height <? FLOONET_FOURTH_HARD_FORK then 4
      else 5
  | _ =>
      if height <? HARD_FORK_INTERVAL then 1
      else if height <? 2 * HARD_FORK_INTERVAL then 2
      else if height <? 3 * HARD_FORK_INTERVAL then 3
      else if height <? 4 * HARD_FORK_INTERVAL then 4
      else 5
  end.

(** Consensus.h:43-57: [hashes] are the hashes of the values in order; [Hash] values are
    compared bytewise, that is as big-endian numbers of equal length. *)
Fixpoint IsSorted (hashes : list N) : bool :=
  match hashes with
  | [] => true
  | [_] => true
  | h :: (h' :: _) as rest => if h' <? h then false else IsSorted rest
  end.
