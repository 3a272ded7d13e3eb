(** Properties C26 (difficulty), C28 (versions), C30 (future blocks), C43 (graph sizes) and
    C45 (accepted headers carry the work they claim). *)
From Verif Require Import Base Bytes CodecModel U128Model U128Spec U128Props ConsensusModel CuckooModel CuckooProps
  DifficultyModel DifficultySpec DifficultyProofs.
Local Open Scope N_scope.

(** * C26 *)

(** Before the fourth fork: with 61 known ancestors, the requirement is [dma_required] of the
    work and the seconds of the last 60 blocks, and the scaling is [scaling_required]; no
    64-bit computation wraps while sixty times the work of the window fits in 64 bits. *)
Theorem C26_dma_exact db header newest older :
  let oldest := last older newest in
  let work := h_totalDifficulty newest - h_totalDifficulty oldest in
  headers_back db (h_previousBlockHash header) (newest :: older) -> length older = 60%nat ->
  (forall h, In h (newest :: older) -> h_totalDifficulty h < W64 /\ h_scalingDifficulty h < W32) ->
  (0 <= h_timestamp oldest)%Z -> (h_timestamp oldest <= h_timestamp newest)%Z ->
  (h_timestamp newest < 9223372036854775808)%Z ->
  h_totalDifficulty oldest <= h_totalDifficulty newest -> work * 60 < W64 ->
  exists info, NextDMA db header = Ret info /\
    hi_difficulty info = dma_required work (Z.to_N (h_timestamp newest - h_timestamp oldest)) /\
    hi_secondaryScaling info =
      scaling_required (total_scaling (removelast (newest :: older))) (count_secondary (removelast (newest :: older)))
        (wanted_secondary (h_height header)) mod W32.
Proof.
  intros oldest work Hb Hl Hbnd T0 T1 T2 D0 D1. eexists. split; [apply (NextDMA_window db header newest older); assumption|].
  split; reflexivity.
Qed.

(** At least the minimum; longer windows never need more work; between half and one and a half
    times the average work of the window; exactly the average at one hour. *)
Theorem C26_dma_bounds work span :
  3 <= dma_required work span /\
  (forall span', span <= span' -> dma_required work span' <= dma_required work span) /\
  work / 120 <= dma_required work span <= N.max 3 (work / 40) /\
  dma_required work 3600 = N.max 3 (work / 60).
Proof.
  split; [unfold dma_required; lia|]. split; [intros; apply dma_antitone; assumption|].
  split; [apply dma_window|]. unfold dma_required.
  change (N.max 1800 (N.min ((3600 + 2 * 3600) / 3) 7200)) with 3600.
  replace (work * 60 / 3600) with (work / 60) by lia. reflexivity.
Qed.

(** The scaling stays at 13 or more and at most doubles the average of the window. *)
Theorem C26_scaling_bounds sum count pct : pct <= 90 ->
  13 <= scaling_required sum count pct <= N.max 13 (sum / 30) /\
  (sum < 60 * 2147483648 -> scaling_required sum count pct mod W32 = scaling_required sum count pct).
Proof.
  intros Hp. assert (U : sum * pct / N.max 1 (N.max (30 * pct) (N.min ((100 * count + 12 * (60 * pct)) / 13) (120 * pct))) <= sum / 30).
  { set (a := N.max 1 _). assert (A : N.max 1 (30 * pct) <= a) by (unfold a; lia). clearbody a.
    transitivity (sum * pct / N.max 1 (30 * pct)); [apply N.div_le_compat_l; split; [lia|exact A]|].
    destruct (N.eq_dec pct 0) as [->|Hz]; [rewrite !N.mul_0_r, N.div_0_l by lia; lia|].
    replace (N.max 1 (30 * pct)) with (pct * 30) by lia. rewrite <- N.div_div by lia.
    rewrite N.div_mul by lia. lia. }
  unfold scaling_required. split; [lia|]. intros Hs. apply N.mod_small. lia.
Qed.

(** After the fourth fork: exact while 14400 times the last block's work fits in 64 bits. *)
Theorem C26_wtema_exact env db header newest previous :
  let work := h_totalDifficulty newest - h_totalDifficulty previous in
  headers_back db (h_previousBlockHash header) [newest; previous] ->
  (h_timestamp previous <= h_timestamp newest)%Z ->
  (h_timestamp newest - h_timestamp previous < 9223372036854775808)%Z ->
  h_totalDifficulty previous <= h_totalDifficulty newest -> h_totalDifficulty newest < W64 ->
  work * 14400 < W64 ->
  exists info, NextWTEMA db env header = Ret info /\
    hi_difficulty info = wtema_required (wtema_floor env) work (Z.to_N (h_timestamp newest - h_timestamp previous)) /\
    hi_secondaryScaling info = 0.
Proof.
  intros work Hb T1 T2 D1 D2 D3. inversion Hb as [|k h l H0 Hb1]; subst.
  inversion Hb1 as [|k h l H1 Hb2]; subst.
  eexists. split; [apply (NextWTEMA_exact env db header newest previous); assumption|]. split; reflexivity.
Qed.

(** At least the floor; a longer last block never raises the requirement; at 60 seconds or more
    it does not rise, at 60 seconds or less it does not fall; it rises by at most 1/239. *)
Theorem C26_wtema_bounds floor work span :
  floor <= wtema_required floor work span /\
  (forall span', span <= span' -> wtema_required floor work span' <= wtema_required floor work span) /\
  (60 <= span -> wtema_required floor work span <= N.max floor work) /\
  (span <= 60 -> work <= wtema_required floor work span) /\
  wtema_required floor work span <= N.max floor (work + work / 239).
Proof.
  split; [unfold wtema_required; lia|]. split; [intros; apply wtema_antitone; assumption|].
  unfold wtema_required. change (14400 - 60) with 14340. split; [|split].
  - intros H. assert (work * 14400 / (14340 + span) <= work * 14400 / 14400) by (apply N.div_le_compat_l; lia). lia.
  - intros H. assert (work * 14400 / 14400 <= work * 14400 / (14340 + span)) by (apply N.div_le_compat_l; lia). lia.
  - assert (work * 14400 / (14340 + span) <= work * 14400 / 14340) by (apply N.div_le_compat_l; lia). lia.
Qed.

(** Whatever is in the database, a computed requirement is at least the minimum. *)
Theorem C26_minimum env db header info : CalculateNextDifficulty db env header = Ret info ->
  (if h_version header <? 5 then 3 else wtema_floor env) <= hi_difficulty info.
Proof. exact (next_minimum env db header info). Qed.

(** A last block of 1281023894007608 units of work or more makes the product wrap: this one,
    which took the ideal time, should leave the requirement as it is but drops it to the floor. *)
Definition wrap_header (td : N) (ts : Z) (prev : bytes) : BlockHeader :=
  mkHeader 5 2000000 ts prev [] [] [] [] [] 0 0 td 0 0 (mkPoW 32 [] []).
Definition wrap_db (key : bytes) : option BlockHeader :=
  match key with
  | [1] => Some (wrap_header 1281023894017608 1700000060 [2])
  | [2] => Some (wrap_header 10000 1700000000 [])
  | _ => None
  end.
Theorem C26_wtema_no_wrap_refuted :
  exists db header newest previous info,
    headers_back db (h_previousBlockHash header) [newest; previous] /\
    (h_timestamp newest - h_timestamp previous = 60)%Z /\
    h_totalDifficulty newest - h_totalDifficulty previous = 1281023894007608 /\
    NextWTEMA db MAINNET header = Ret info /\ hi_difficulty info = 16384.
Proof.
  exists wrap_db, (wrap_header 0 1700000120 [1]), (wrap_header 1281023894017608 1700000060 [2]),
    (wrap_header 10000 1700000000 []), (mkInfo 1 16384 0 true).
  split; [|vm_compute; tauto].
  apply hb_cons; [reflexivity|]. apply hb_cons; [reflexivity|]. constructor.
Qed.

(** The calculation before the fourth fork is defined as soon as the parent is known, and is
    undefined (element 0 of an empty vector) when it is not. *)
Theorem C26_dma_defined db header :
  (forall h0, db (h_previousBlockHash header) = Some h0 -> exists info, NextDMA db header = Ret info) /\
  (db (h_previousBlockHash header) = None -> NextDMA db header = Fault).
Proof.
  split; [intros h0 H; apply (NextDMA_defined db header h0 H)|].
  intros H. unfold NextDMA, LoadDifficultyData. rewrite H. reflexivity.
Qed.

(** * C28 *)
Theorem C28_version_schedule env height : GetHeaderVersion env height = version_at env height.
Proof. exact (version_correct env height). Qed.

Theorem C28_version_steps env height height' :
  (height <= height' -> GetHeaderVersion env height <= GetHeaderVersion env height') /\
  (GetHeaderVersion env (height + 1) <> GetHeaderVersion env height <-> In (height + 1) (fork_heights env)).
Proof.
  rewrite !version_correct. split.
  - intros H. unfold version_at.
    enough (Nat.le (length (filter (fun f => f <=? height) (fork_heights env)))
            (length (filter (fun f => f <=? height') (fork_heights env)))) by lia.
    induction (fork_heights env) as [|f l IH]; [reflexivity|]. cbn [filter].
    destruct (f <=? height) eqn:E; destruct (f <=? height') eqn:E'; cbn [length]; lia.
  - unfold version_at, fork_heights. destruct env; cbn [filter In];
    repeat match goal with
    | |- context [?a <=? ?b] => let E := fresh "E" in destruct (a <=? b) eqn:E
    end; cbn [length]; lia.
Qed.

(** * C30 *)

(** The limit that is enforced is in clock ticks (nanoseconds), the timestamps in seconds. *)
Theorem C30_future_refused_partial db env keys root now header prev :
  ValidateHeader db env keys root now header prev = Ret tt ->
  (h_timestamp header <= now + 300 * 1000000000)%Z.
Proof.
  unfold ValidateHeader. destruct (negb _); [discriminate|]. unfold GetMaxBlockTime.
  cbv zeta. destruct (in_i64 _); cbn [obind]; [|discriminate].
  destruct (_ <? _)%Z eqn:E; [discriminate|]. intros _.
  unfold DEFAULT_FUTURE_TIME_LIMIT_SEC, ticks_per_second in E. lia.
Qed.

(** So a header's time does not matter to the future check: with any clock after 9 September
    2001, if a header is accepted then a later timestamp, up to the year 31 billion, is never
    the reason to refuse it. *)
Theorem C30_future_never_refused now timestamp : (1000000000 * 1000000000 <= now)%Z ->
  (now < 9223372036854775807 - 300000000000)%Z -> (timestamp <= 1000000000 * 1000000000)%Z ->
  exists limit, GetMaxBlockTime now = Ret limit /\ (timestamp <= limit)%Z.
Proof.
  intros H1 H2 H3. exists (now + 300000000000)%Z. split; [|lia].
  unfold GetMaxBlockTime, DEFAULT_FUTURE_TIME_LIMIT_SEC, ticks_per_second.
  cbv zeta. replace (in_i64 _) with true; [reflexivity|]. unfold in_i64. lia.
Qed.

(** A complete header checked against its parent; the nonces are a real Cuckatoo cycle. *)
Definition small_nonces : list N := [11503; 306912; 696891; 784543; 1191424; 1192054; 1245651; 2007777; 3279670; 3818129; 3940833; 3966825; 4448424; 5242521; 5395026; 6121491; 6425441; 7312781; 7369289; 7705571; 7900733; 8314235; 8650490; 8841970; 9075498; 9511280; 9593878; 9931948; 10396916; 11061884; 11668826; 12447506; 12591618; 13135413; 14566358; 14916467; 15291145; 15673979; 16450319; 16460042; 16673871; 16676122].
Definition small_prev2 : BlockHeader :=
  mkHeader 5 1048399 1700000000 [9] [8] [] [] [] [] 0 0 1000 0 0 (mkPoW 32 [] [2]).
Definition small_prev : BlockHeader :=
  mkHeader 5 1048400 1700000060 [2] [8] [] [] [] [] 0 0 2000 0 0 (mkPoW 32 [] [1]).
Definition small_db (key : bytes) : option BlockHeader :=
  match key with [1] => Some small_prev | [2] => Some small_prev2 | _ => None end.
Definition small_header (ts : Z) : BlockHeader :=
  mkHeader 5 1048401 ts [1] [7] [] [] [] [] 0 0 18384 0 0
    (mkPoW 24 small_nonces [0;0;0;0;0;0;0;1;1;2;3;4;5;6;7;8;1;2;3;4;5;6;7;8;1;2;3;4;5;6;7;8]).
Definition small_root (height : N) : outcome bytes := if height =? 1048400 then Ret [7] else Throw.
Example C45_example_accepted :
  ValidateHeader small_db MAINNET (fun _ => mkSip 28 2 3 4) small_root 1700000130000000000 (small_header 1700000120) small_prev = Ret tt.
Proof. vm_compute. reflexivity. Qed.

(** The same header dated a century ahead of the clock is accepted. *)
Theorem C30_future_refused_refuted :
  exists db keys root now header prev,
    ValidateHeader db MAINNET keys root now header prev = Ret tt /\
    (now / 1000000000 + 12 * 60 < h_timestamp header)%Z.
Proof.
  exists small_db, (fun _ => mkSip 28 2 3 4), small_root, 1700000130000000000%Z, (small_header 5000000000), small_prev.
  split; vm_compute; reflexivity.
Qed.

(** * C43 *)

(** Checking any proof on a graph of fewer than 2^24 edges is undefined (a shift by a huge
    count), as soon as the header claims more total difficulty than its parent. *)
Theorem C43_small_graphs_refused_refuted db env keys header prev :
  h_totalDifficulty prev < h_totalDifficulty header ->
  m_edgeBits (h_proofOfWork header) < 24 ->
  PoW_IsPoWValid db env keys header prev = Fault.
Proof.
  intros H1 H2. unfold PoW_IsPoWValid.
  replace (h_totalDifficulty header <=? h_totalDifficulty prev) with false by lia.
  unfold PoW_GetMaximumDifficulty, SECOND_POW_EDGE_BITS.
  replace (m_edgeBits (h_proofOfWork header) =? 29) with false by lia.
  rewrite scaling_small by exact H2. reflexivity.
Qed.

(** A primary proof on a graph of 2^24 edges, 128 times smaller than the smallest the network
    allows (2^31), is accepted on the main network. *)
Theorem C43_minimum_size_refuted :
  exists db keys root now header prev,
    ValidateHeader db MAINNET keys root now header prev = Ret tt /\
    m_edgeBits (h_proofOfWork header) = 24 /\ 24 < DEFAULT_MIN_EDGE_BITS.
Proof.
  exists small_db, (fun _ => mkSip 28 2 3 4), small_root, 1700000130000000000%Z, (small_header 1700000120), small_prev.
  split; [|split]; vm_compute; reflexivity.
Qed.
Print Assumptions C43_minimum_size_refuted.

(** On larger graphs the check is always defined, except that of a version 2 header with a
    secondary proof (which may never end, see C25), when the parent is known. *)
Theorem C43_larger_graphs_defined db env keys header prev grandprev :
  db (h_previousBlockHash header) = Some prev -> db (h_previousBlockHash prev) = Some grandprev ->
  (h_timestamp grandprev <= h_timestamp prev)%Z -> (h_timestamp prev - h_timestamp grandprev < 9223372036854775808)%Z ->
  24 <= m_edgeBits (h_proofOfWork header) <= 63 ->
  (m_edgeBits (h_proofOfWork header) = 29 -> h_version header <> 2) ->
  is_bytes (pow_hash (h_proofOfWork header)) -> length (pow_hash (h_proofOfWork header)) = 32%nat ->
  h_scalingDifficulty header < W32 ->
  exists b, PoW_IsPoWValid db env keys header prev = Ret b.
Proof.
  intros Hp Hg T1 T2 He Hv Hby Hlen Hsc. unfold PoW_IsPoWValid.
  destruct (_ <=? _); [eexists; reflexivity|].
  assert (Hm : exists m, PoW_GetMaximumDifficulty header = Ret m).
  { unfold PoW_GetMaximumDifficulty, SECOND_POW_EDGE_BITS.
    assert (B8 : is_bytes (firstn 8 (pow_hash (h_proofOfWork header)))) by (apply is_bytes_firstn; exact Hby).
    assert (L8 : length (firstn 8 (pow_hash (h_proofOfWork header))) = 8%nat) by (rewrite firstn_length, Hlen; reflexivity).
    destruct (_ =? 29); cbn [obind].
    - eexists. apply C24_difficulty; [lia|exact B8|exact L8].
    - rewrite scaling_bits by lia. cbn [obind]. eexists. apply C24_difficulty; [apply graph_weight_lt; lia|exact B8|exact L8]. }
  destruct Hm as [m Hm]. rewrite Hm. cbn [obind]. destruct (_ <? _); [eexists; reflexivity|].
  assert (Hn : exists info, CalculateNextDifficulty db env header = Ret info).
  { unfold CalculateNextDifficulty. destruct (_ <? 5).
    - apply (NextDMA_defined db header prev Hp).
    - unfold NextWTEMA. rewrite Hp, Hg. cbv zeta.
      replace (in_i64 _) with true by (unfold in_i64; lia). cbn [negb].
      rewrite u64_nonneg by lia. unfold WTEMA_HALF_LIFE, BLOCK_TIME_SEC. rewrite add64_small by lia.
      replace (14400 - 60 + Z.to_N (h_timestamp prev - h_timestamp grandprev) =? 0) with false by lia.
      eexists. reflexivity. }
  destruct Hn as [info Hn]. rewrite Hn. cbn [obind].
  destruct (negb _); [eexists; reflexivity|]. destruct (negb _); [eexists; reflexivity|]. cbv zeta.
  destruct (C25_verifiers_terminate (variant_for (h_version header) (m_edgeBits (h_proofOfWork header)))
              (keys header) (m_edgeBits (h_proofOfWork header)) (m_proofNonces (h_proofOfWork header))) as [a Ha].
  { unfold variant_for. destruct (_ =? 29) eqn:E29; [|discriminate]. apply N.eqb_eq in E29. specialize (Hv E29).
    destruct (h_version header =? 1); [discriminate|].
    replace (h_version header =? 2) with false by lia. destruct (_ =? 3); discriminate. }
  rewrite Ha. eexists. reflexivity.
Qed.

(** * C45 *)

(** A header accepted on a real network: next height, version of that height, later than its
    parent, exactly the required difficulty and scaling, its nonces are a 42-cycle of its own
    graph, and the hash of the proof is worth at least the difficulty added. *)
Theorem C45_accepted_header db env keys root now header prev :
  env <> AUTOMATED_TESTING ->
  h_height prev + 1 < W64 -> h_totalDifficulty header < W64 -> h_scalingDifficulty header < W32 ->
  m_edgeBits (h_proofOfWork header) <= 63 ->
  is_bytes (pow_hash (h_proofOfWork header)) -> length (pow_hash (h_proofOfWork header)) = 32%nat ->
  ValidateHeader db env keys root now header prev = Ret tt ->
  h_height header = h_height prev + 1 /\
  h_version header = version_at env (h_height header) /\
  (h_timestamp prev < h_timestamp header)%Z /\
  h_totalDifficulty prev < h_totalDifficulty header /\
  (exists info, CalculateNextDifficulty db env header = Ret info /\
     h_totalDifficulty header = h_totalDifficulty prev + hi_difficulty info /\
     h_scalingDifficulty header = hi_secondaryScaling info) /\
  is_proof (variant_for (h_version header) (m_edgeBits (h_proofOfWork header))) (keys header)
     (m_edgeBits (h_proofOfWork header)) (m_proofNonces (h_proofOfWork header)) /\
  h_totalDifficulty header - h_totalDifficulty prev <=
    difficulty_spec (if m_edgeBits (h_proofOfWork header) =? 29 then h_scalingDifficulty header
                     else graph_weight (m_edgeBits (h_proofOfWork header)))
                    (be_value (firstn 8 (pow_hash (h_proofOfWork header)))) /\
  root (h_height prev) = Ret (h_previousRoot header).
Proof.
  intros Henv Hh Htd Hsc He Hby Hlen H. unfold ValidateHeader in H.
  destruct (h_height header =? add64 (h_height prev) 1) eqn:E1; cbn [negb] in H; [|discriminate].
  apply N.eqb_eq in E1. rewrite add64_small in E1 by exact Hh.
  destruct (GetMaxBlockTime now) as [mx| |]; cbn [obind] in H; try discriminate.
  destruct (mx <? h_timestamp header)%Z; [discriminate|]. cbv zeta in H. rewrite version_correct in H.
  destruct (h_version header =? version_at env (h_height header)) eqn:E2; cbn [negb] in H; [|discriminate].
  apply N.eqb_eq in E2. destruct (h_timestamp header <=? h_timestamp prev)%Z eqn:E3; [discriminate|].
  replace (IsPoWValid db env keys header prev) with (PoW_IsPoWValid db env keys header prev) in H
    by (destruct env; [reflexivity|reflexivity|contradiction]).
  destruct (PoW_IsPoWValid db env keys header prev) as [b| |] eqn:EP; cbn [obind] in H; try discriminate.
  destruct b; cbn [negb] in H; [|discriminate].
  destruct (root (sub64 (h_height header) 1)) as [rt| |] eqn:ER; cbn [obind] in H; try discriminate.
  destruct (bytes_eqb rt (h_previousRoot header)) eqn:EB; cbn [negb] in H; [|discriminate].
  apply bytes_eqb_spec in EB. subst rt. rewrite E1, sub64_small in ER by lia.
  replace (h_height prev + 1 - 1) with (h_height prev) in ER by lia.
  unfold PoW_IsPoWValid in EP.
  destruct (h_totalDifficulty header <=? h_totalDifficulty prev) eqn:E4; [discriminate|].
  destruct (PoW_GetMaximumDifficulty header) as [m| |] eqn:EM; cbn [obind] in EP; try discriminate.
  rewrite sub64_small in EP by lia. cbv zeta in EP.
  destruct (m <? h_totalDifficulty header - h_totalDifficulty prev) eqn:E5; [discriminate|].
  destruct (CalculateNextDifficulty db env header) as [info| |] eqn:EN; cbn [obind] in EP; try discriminate.
  destruct (_ =? hi_difficulty info) eqn:E6; cbn [negb] in EP; [|discriminate]. apply N.eqb_eq in E6.
  destruct (h_scalingDifficulty header =? hi_secondaryScaling info) eqn:E7; cbn [negb] in EP; [|discriminate]. apply N.eqb_eq in E7.
  destruct (Validate _ 85 (keys header) _ _) as [v|] eqn:EV; [|discriminate]. injection EP as ->.
  assert (B8 : is_bytes (firstn 8 (pow_hash (h_proofOfWork header)))) by (apply is_bytes_firstn; exact Hby).
  assert (L8 : length (firstn 8 (pow_hash (h_proofOfWork header))) = 8%nat) by (rewrite firstn_length, Hlen; reflexivity).
  split; [exact E1|]. split; [exact E2|]. split; [lia|]. split; [lia|].
  split; [exists info; repeat split; [lia|exact E7]|].
  split; [eapply C25_accepted_is_cycle; exact EV|].
  split; [|exact ER].
  assert (Em : m = difficulty_spec (if m_edgeBits (h_proofOfWork header) =? 29 then h_scalingDifficulty header
                     else graph_weight (m_edgeBits (h_proofOfWork header)))
                    (be_value (firstn 8 (pow_hash (h_proofOfWork header))))).
  { unfold PoW_GetMaximumDifficulty, SECOND_POW_EDGE_BITS in EM.
    destruct (m_edgeBits (h_proofOfWork header) =? 29); cbn [obind] in EM.
    - rewrite C24_difficulty in EM by (assumption || lia). congruence.
    - destruct (N.lt_ge_cases (m_edgeBits (h_proofOfWork header)) 24) as [Hlt|Hge].
      + rewrite scaling_small in EM by exact Hlt. discriminate.
      + rewrite scaling_bits in EM by assumption. cbn [obind] in EM.
        rewrite C24_difficulty in EM by (assumption || apply graph_weight_lt; assumption). congruence. }
  rewrite <- Em. lia.
Qed.

(** After the fourth fork the secondary proof is no longer accepted. *)
Theorem C45_no_secondary_after_fork db env keys root now header prev :
  env <> AUTOMATED_TESTING ->
  h_height prev + 1 < W64 -> h_totalDifficulty header < W64 -> h_scalingDifficulty header < W32 ->
  m_edgeBits (h_proofOfWork header) <= 63 ->
  is_bytes (pow_hash (h_proofOfWork header)) -> length (pow_hash (h_proofOfWork header)) = 32%nat ->
  ValidateHeader db env keys root now header prev = Ret tt ->
  5 <= version_at env (h_height header) -> m_edgeBits (h_proofOfWork header) <> 29.
Proof.
  intros Henv Hh Htd Hsc He Hby Hlen H Hv E29.
  destruct (C45_accepted_header db env keys root now header prev Henv Hh Htd Hsc He Hby Hlen H)
    as (_ & Ev & _ & Ht & (info & Hi & _ & Hs) & _ & Hd & _).
  unfold CalculateNextDifficulty in Hi. rewrite Ev in Hi.
  replace (version_at env (h_height header) <? 5) with false in Hi by lia.
  unfold NextWTEMA in Hi. destruct (db _) as [h0|]; [|discriminate]. destruct (db _) as [h1|]; [|discriminate].
  cbv zeta in Hi. destruct (negb _); [discriminate|]. destruct (_ =? 0); [discriminate|].
  injection Hi as <-. unfold FromDiffAndScaling in Hs. cbn [hi_secondaryScaling] in Hs.
  rewrite E29 in Hd. change (29 =? 29) with true in Hd. cbv iota in Hd. rewrite Hs in Hd.
  unfold difficulty_spec in Hd. change (0 mod W32) with 0 in Hd. rewrite N.mul_0_l, N.div_0_l in Hd by lia. lia.
Qed.

(** A database meeting the hypotheses of the two exactness theorems: blocks 50 seconds apart
    with 500 units of work each. *)
Definition ex_header (n : N) : BlockHeader :=
  mkHeader 1 n (1700000000 + 50 * Z.of_N n) [n - 1] [] [] [] [] [] 0 0 (500 * n) 1856 0 (mkPoW (if n mod 2 =? 0 then 29 else 31) [] []).
Definition ex_db (key : bytes) : option BlockHeader :=
  match key with [n] => Some (ex_header n) | _ => None end.
Definition ex_older : list BlockHeader := map (fun k => ex_header (99 - N.of_nat k)) (seq 0 60).
Lemma ex_back : headers_back ex_db (h_previousBlockHash (ex_header 101)) (ex_header 100 :: ex_older).
Proof.
  unfold ex_older. cbn [seq map].
  repeat (apply hb_cons; [reflexivity|]). constructor.
Qed.
Example C26_example_dma :
  headers_back ex_db (h_previousBlockHash (ex_header 101)) (ex_header 100 :: ex_older) /\
  length ex_older = 60%nat /\
  h_timestamp (last ex_older (ex_header 100)) = 1700002000%Z /\
  h_totalDifficulty (last ex_older (ex_header 100)) = 20000 /\
  omap hi_difficulty (NextDMA ex_db (ex_header 101)) = Ret 529 /\ dma_required 30000 3000 = 529 /\
  omap hi_secondaryScaling (NextDMA ex_db (ex_header 101)) = Ret 1921.
Proof. split; [exact ex_back|]. vm_compute. repeat split; reflexivity. Qed.
Example C26_example_wtema :
  headers_back ex_db (h_previousBlockHash (ex_header 101)) [ex_header 100; ex_header 99] /\
  omap hi_difficulty (NextWTEMA ex_db FLOONET (ex_header 101)) = Ret 1856 /\
  wtema_required 16384 20000000 50 = 20013898.
Proof. split; [repeat (apply hb_cons; [reflexivity|]); constructor|]. vm_compute. repeat split; reflexivity. Qed.
Example C28_example : GetHeaderVersion MAINNET 262079 = 1 /\ GetHeaderVersion MAINNET 262080 = 2 /\
  GetHeaderVersion FLOONET 642240 = 5 /\ In 262080 (fork_heights MAINNET).
Proof. vm_compute. tauto. Qed.

Print Assumptions C26_dma_exact.
Print Assumptions C26_dma_bounds.
Print Assumptions C26_scaling_bounds.
Print Assumptions C26_wtema_exact.
Print Assumptions C26_wtema_bounds.
Print Assumptions C26_minimum.
Print Assumptions C26_wtema_no_wrap_refuted.
Print Assumptions C26_dma_defined.
Print Assumptions C28_version_schedule.
Print Assumptions C28_version_steps.
Print Assumptions C30_future_refused_partial.
Print Assumptions C30_future_never_refused.
Print Assumptions C30_future_refused_refuted.
Print Assumptions C43_small_graphs_refused_refuted.
Print Assumptions C43_larger_graphs_defined.
Print Assumptions C45_accepted_header.
Print Assumptions C45_no_secondary_after_fork.
