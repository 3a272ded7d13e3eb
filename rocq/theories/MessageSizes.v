(** How long the bodies of messages are (C53). *)
From Verif Require Import Base Bytes FileModel SerialModel SerialSpec SerialProofs ConsensusModel CodecModel CodecSpec CodecProofs MessageModel MessageSpec MessageProofs.
Local Open Scope N_scope.

Lemma flat_map_short {A} (enc : A -> bytes) (P : A -> Prop) n l : (forall a, P a -> N.of_nat (length (enc a)) <= n) -> Forall P l ->
  N.of_nat (length (flat_map enc l)) <= n * N.of_nat (length l).
Proof.
  intros H. induction 1 as [|a l Ha Hl IH]; [cbn; lia|]. cbn [flat_map length]. rewrite app_length. specialize (H a Ha). lia.
Qed.
Lemma fee_long f : length (Fee_Serialize f) = 8%nat.
Proof. unfold Fee_Serialize. rewrite ?app_length, ?Append_length. reflexivity. Qed.
Lemma kernel_long v k : kernel_ok v k -> N.of_nat (length (Kernel_Serialize v k)) <= 114.
Proof.
  intros (H1 & H2 & _). unfold Kernel_Serialize, AppendBigInteger.
  destruct (2 <=? v); [|rewrite !app_length, !Append_length, fee_long, H1, H2; cbn; lia].
  repeat match goal with |- context [if ?c then _ else _] => destruct c end;
    repeat (rewrite app_length || rewrite Append_length || rewrite fee_long || rewrite H1 || rewrite H2); cbn [length]; lia.
Qed.
Lemma output_long o : output_ok o -> N.of_nat (length (Output_Serialize o)) <= 717.
Proof.
  intros (H1 & H2 & H3). unfold Output_Serialize, RangeProof_Serialize, AppendBigInteger, AppendByteVector. cbn [AppendLength app].
  rewrite !app_length, !Append_length, H2. lia.
Qed.
Lemma input_long cf v i : input_ok cf v i -> N.of_nat (length (Input_Serialize v i)) <= 34.
Proof.
  intros (H1 & H2 & H3). unfold Input_Serialize, AppendBigInteger. rewrite app_length, H2. destruct (v <? 3); cbn; lia.
Qed.
Lemma pack_nonces_long e : forall l n bits, length (pack_nonces e n l bits) = length bits.
Proof.
  induction l as [|x l IH]; intros n bits; [reflexivity|]. cbn [pack_nonces]. rewrite IH. unfold pack_nonce.
  match goal with |- context [fold_left _ ?l _] => generalize l end. intros L. revert bits. induction L as [|b L IHL]; intros bits; [reflexivity|]. cbn [fold_left]. rewrite IHL.
  destruct (negb _); [|reflexivity]. apply update_nth_length.
Qed.
Lemma pow_long p : pow_fields_ok p -> N.of_nat (length (PoW_Serialize p)) <= 332.
Proof.
  intros (H1 & H2 & H3). unfold PoW_Serialize, SerializeCycle, AppendByteVector. cbn [AppendLength app].
  rewrite ?app_length, ?Append_length, ?pack_nonces_long, ?repeat_length.
  assert (cycle_bytes_len (m_edgeBits p) <= 331); [|lia].
  unfold cycle_bytes_len, PROOFSIZE. transitivity ((63 * 42 + 7) / 8); [apply N.div_le_mono; lia | cbn; lia].
Qed.
Lemma header_long H h : sound_header H h -> N.of_nat (length (BlockHeader_Serialize h)) <= 578.
Proof.
  intros [(H1 & H2 & H3 & H4 & H5 & H6 & H7 & H8 & H9 & H10 & H11 & H12 & H13 & H14 & HP) _].
  pose proof (pow_long _ HP) as L. rewrite header_serialize_split, app_length.
  assert (N.of_nat (length (GetPreProofOfWork h)) = 246); [|lia].
  unfold GetPreProofOfWork, AppendBigInteger, AppendSigned. rewrite !app_length, !Append_length, H4, H5, H6, H7, H8, H9. reflexivity.
Qed.
Lemma body_long H cf v b : body_ok H cf v b -> N.of_nat (length (Body_Serialize v b)) <= 24 + 38 * weight b.
Proof.
  intros (HI & HO & HK & _). unfold Body_Serialize, weight. rewrite !app_length, !Append_length.
  pose proof (flat_map_short (Input_Serialize v) _ 34 _ (input_long cf v) HI).
  pose proof (flat_map_short Output_Serialize _ 717 _ output_long HO).
  pose proof (flat_map_short (Kernel_Serialize v) _ 114 _ (kernel_long v) HK). lia.
Qed.
Lemma address_long s : address_ok s -> N.of_nat (length (SocketAddress_Serialize s)) <= 19.
Proof.
  intros [H1 H2]. unfold SocketAddress_Serialize, IPAddress_Serialize. rewrite app_length, Append_length.
  destruct (m_ipAddress s) as [b|b]; cbn [ip_ok] in H1; rewrite app_length, Append_length, H1; cbn; lia.
Qed.
Lemma segment_id_long i : length (SegmentId_Serialize i) = 9%nat.
Proof. reflexivity. Qed.

Lemma protocol_fits H cf v m : message_ok H cf v m -> protocol_size v m -> fits v m.
Proof.
  intros OK P. unfold fits. destruct m; cbn [message_ok protocol_size] in OK, P; try contradiction; cbn [GetMessageType];
    unfold T_Hand, T_Shake, T_Ping, T_Pong, T_GetPeerAddrs, T_PeerAddrs, T_GetHeaders, T_Header, T_Headers, T_GetBlock, T_Block, T_GetCompactBlock, T_CompactBlock,
      T_StemTransaction, T_Transaction, T_TxHashSetRequest, T_TxHashSetArchive, T_BanReason, T_GetTransaction, T_TransactionKernel, T_OutputBitmapSegment, T_OutputSegment,
      T_RangeProofSegment, T_KernelSegment; cbn [body_limit]; try (eapply N.le_trans; [exact P | lia]); cbn [SerializeBody];
    unfold AppendBigInteger, hash_ok in *.
  - destruct OK as (_ & _ & _ & X & _ & Y & Z). unfold AppendVarStr. rewrite !app_length, !Append_length, X.
    pose proof (address_long _ Y). pose proof (address_long _ Z). cbn [AppendLength]. rewrite Append_length. lia.
  - destruct OK as (_ & _ & X & _). unfold AppendVarStr. rewrite !app_length, !Append_length, X. cbn [AppendLength]. rewrite Append_length. lia.
  - rewrite app_length, !Append_length. cbn. lia.
  - rewrite app_length, !Append_length. cbn. lia.
  - rewrite Append_length. cbn. lia.
  - rewrite app_length, Append_length. pose proof (flat_map_short _ _ 19 _ address_long OK). lia.
  - rewrite app_length, Append_length. pose proof (hashes_long hashes OK) as X. unfold AppendBigInteger in X. rewrite X. lia.
  - pose proof (header_long H h OK). lia.
  - rewrite app_length, Append_length. pose proof (flat_map_short _ _ 578 _ (header_long H) OK). lia.
  - rewrite OK. cbn. lia.
  - destruct OK as [X Y]. unfold FullBlock_Serialize. rewrite app_length. pose proof (header_long H _ X). pose proof (body_long H cf v _ Y). lia.
  - rewrite OK. cbn. lia.
  - destruct OK as [X (_ & Y & Z & W)]. destruct P as (P1 & P2 & P3). unfold CompactBlock_Serialize. rewrite !app_length, !Append_length.
    pose proof (header_long H _ X). pose proof (flat_map_short _ _ 717 _ output_long Y). pose proof (flat_map_short _ _ 114 _ (kernel_long v) Z).
    pose proof (flat_map_short ShortId_Serialize (fun id => length id = 6%nat) 6 _ ltac:(intros a E; unfold ShortId_Serialize, AppendBigInteger; rewrite E; cbn; lia) W). lia.
  - destruct OK as [X Y]. unfold Transaction_Serialize, AppendBigInteger. rewrite app_length, X. pose proof (body_long H cf v _ Y). lia.
  - destruct OK as [X Y]. unfold Transaction_Serialize, AppendBigInteger. rewrite app_length, X. pose proof (body_long H cf v _ Y). lia.
  - destruct OK as [X _]. rewrite app_length, Append_length, X. cbn. lia.
  - destruct OK as [X _]. rewrite !app_length, !Append_length, X. cbn. lia.
  - rewrite Append_length. cbn. lia.
  - rewrite OK. cbn. lia.
  - rewrite OK. cbn. lia.
  - destruct OK as (T & X & _). rewrite app_length, X, segment_id_long. destruct T as [-> | [-> | [-> | ->]]]; cbn; lia.
Qed.

Section Streams.
Variable Blake2b : bytes -> bytes.
Variable features_of : bytes -> N.
Variables magic1 magic2 : N.
Hypothesis magic_bytes : magic1 < 256 /\ magic2 < 256.
Notation recv := (receive Blake2b features_of magic1 magic2).
Notation recv_from := (receive_from Blake2b features_of magic1 magic2).
Notation frame := (Message_Serialize magic1 magic2).

Lemma header_refused t len : t < 256 -> len < W64 -> body_limit t < len ->
  MessageHeader_Deserialize magic1 magic2 (mkBB 0 (header_bytes magic1 magic2 t len) 1) = Throw.
Proof.
  intros H1 H2 H3.
  assert (D : decodes 1 (let! a := ReadU8 in let! b := ReadU8 in let! c := ReadU8 in let! d := ReadU64 in rret (a, b, c, d))
    (header_bytes magic1 magic2 t len) (magic1, magic2, t, len)).
  { unfold header_bytes. change ([magic1; magic2]) with ([magic1] ++ [magic2]). rewrite <- app_assoc.
    apply dec_bind with magic1.
    { replace [magic1] with (Append 1 magic1) by (unfold Append; cbn [le_bytes rev app]; rewrite N.mod_small by lia; reflexivity). apply dec_u8. lia. }
    apply dec_bind with magic2.
    { replace [magic2] with (Append 1 magic2) by (unfold Append; cbn [le_bytes rev app]; rewrite N.mod_small by lia; reflexivity). apply dec_u8. lia. }
    apply dec_bind with t; [apply dec_u8; exact H1|]. apply dec_last with len; [apply dec_u64; exact H2 | reflexivity]. }
  apply read_all in D; [|reflexivity]. revert D.
  unfold MessageHeader_Deserialize, rbind, rret, rthrow. set (bb := mkBB 0 (header_bytes magic1 magic2 t len) 1). clearbody bb.
  destruct (ReadU8 bb) as [[x1 b1]| |]; cbn [obind fst snd]; intros E; try discriminate E.
  destruct (ReadU8 b1) as [[x2 b2]| |]; cbn [obind fst snd] in E |- *; try discriminate E.
  destruct (ReadU8 b2) as [[x3 b3]| |] eqn:E3; cbn [obind fst snd] in E; try discriminate E.
  destruct (ReadU64 b3) as [[x4 b4]| |] eqn:E4; cbn [obind fst snd] in E; try discriminate E.
  apply (f_equal (fun o => match o with Ret (p, _) => p | _ => (0, 0, 0, 0) end)) in E. injection E as -> -> -> ->.
  rewrite !N.eqb_refl. cbn [negb orb]. rewrite E3. cbn [obind fst snd]. rewrite E4. cbn [obind fst snd].
  rewrite limit_eq. replace (body_limit t <? len) with true by (symmetry; apply N.ltb_lt; exact H3). reflexivity.
Qed.
Lemma refused_first v syncing s : (11 <= length s)%nat -> MessageHeader_Deserialize magic1 magic2 (mkBB 0 (firstn 11 s) 1) = Throw ->
  recv v syncing s = ([], Disconnected).
Proof.
  intros L X. unfold receive. cbn [receive_from].
  replace (nlen s <? HEADER_LENGTH) with false.
  2:{ symmetry. apply N.ltb_ge. unfold nlen, HEADER_LENGTH. lia. }
  rewrite X. reflexivity.
Qed.
(** A message that is too long ends the connection. *)
Lemma first_header v m rest : firstn 11 (frame v m ++ rest) = header_bytes magic1 magic2 (GetMessageType m) (nlen (SerializeBody v m)).
Proof. rewrite frame_split, <- app_assoc. apply firstn_exact. reflexivity. Qed.
Lemma too_long v syncing m rest : message_ok Blake2b features_of v m -> N.of_nat (length (SerializeBody v m)) < W64 -> ~ fits v m ->
  recv v syncing (frame v m ++ rest) = ([], Disconnected).
Proof.
  intros H L F. pose proof (type_byte Blake2b features_of magic1 magic2 magic_bytes v m H) as T. unfold fits in F.
  apply refused_first; [rewrite frame_split, !app_length, header_bytes_long; lia|].
  rewrite first_header. apply header_refused; [exact T | exact L | unfold nlen; lia].
Qed.
(** Another network. *)
Lemma two_bytes b1 b2 bs : b1 < 256 -> b2 < 256 -> N.of_nat (length (b1 :: b2 :: bs)) < W64 ->
  exists bb, (let! a := ReadU8 in let! b := ReadU8 in rret (a, b)) (mkBB 0 (b1 :: b2 :: bs) 1) = Ret (b1, b2, bb).
Proof.
  intros B1 B2 L.
  assert (D2 : decodes 1 (let! a := ReadU8 in let! b := ReadU8 in rret (a, b)) (Append 1 b1 ++ Append 1 b2) (b1, b2)).
  { apply dec_bind with b1; [apply dec_u8; exact B1|]. apply dec_last with b2; [apply dec_u8; exact B2 | reflexivity]. }
  assert (Q : Append 1 b1 ++ Append 1 b2 = [b1; b2]) by (unfold Append; cbn [le_bytes rev app]; rewrite !N.mod_small by lia; reflexivity).
  rewrite Q in D2. specialize (D2 [] bs L). eexists. exact D2.
Qed.
Lemma wrong_magic b1 b2 bb : (b1 <> magic1 \/ b2 <> magic2) ->
  (exists b', (let! a := ReadU8 in let! b := ReadU8 in rret (a, b)) bb = Ret (b1, b2, b')) -> MessageHeader_Deserialize magic1 magic2 bb = Throw.
Proof.
  intros D [b' E]. revert E. unfold MessageHeader_Deserialize, rbind, rret, rthrow.
  destruct (ReadU8 bb) as [[x1 c1]| |]; cbn [obind fst snd]; intros E; try discriminate E.
  destruct (ReadU8 c1) as [[x2 c2]| |]; cbn [obind fst snd] in E |- *; try discriminate E.
  apply (f_equal (fun o => match o with Ret (p, _) => p | _ => (0, 0) end)) in E. injection E as -> ->.
  replace (negb (b1 =? magic1) || negb (b2 =? magic2)) with true; [reflexivity|].
  symmetry. apply orb_true_iff. destruct D as [D|D]; [left|right]; apply negb_true_iff, N.eqb_neq; exact D.
Qed.
Lemma other_network v syncing b1 b2 rest : b1 < 256 -> b2 < 256 -> (b1 <> magic1 \/ b2 <> magic2) -> (9 <= length rest)%nat ->
  recv v syncing (b1 :: b2 :: rest) = ([], Disconnected).
Proof.
  intros B1 B2 D L. apply refused_first; [cbn [length]; lia|]. apply (wrong_magic b1 b2); [exact D|].
  change (firstn 11 (b1 :: b2 :: rest)) with (b1 :: b2 :: firstn 9 rest).
  apply two_bytes; [exact B1 | exact B2|]. cbn [length]. pose proof (firstn_le_length 9 rest). lia.
Qed.
(** A stream cut anywhere. *)
Lemma cut_one v syncing m k : message_ok Blake2b features_of v m -> fits v m -> (k < length (frame v m))%nat ->
  recv v syncing (firstn k (frame v m)) = ([], Waiting).
Proof.
  intros H F L. pose proof (type_byte Blake2b features_of magic1 magic2 magic_bytes v m H) as T. unfold fits in F.
  unfold receive. cbn [receive_from]. destruct (N.ltb_spec (nlen (firstn k (frame v m))) HEADER_LENGTH) as [B|B]; [reflexivity|].
  assert (K : (11 <= k)%nat). { unfold nlen, HEADER_LENGTH in B. pose proof (firstn_le_length k (frame v m)). rewrite firstn_length in B. lia. }
  rewrite frame_split in *. rewrite app_length, header_bytes_long in L.
  rewrite firstn_app, header_bytes_long. rewrite (firstn_all2 (header_bytes _ _ _ _)) by (rewrite header_bytes_long; lia).
  rewrite (firstn_exact (header_bytes magic1 magic2 _ _) _ 11 eq_refl), (skipn_exact (header_bytes magic1 magic2 _ _) _ 11 eq_refl).
  destruct (header_read magic1 magic2 magic_bytes (GetMessageType m) (nlen (SerializeBody v m)) T F) as [b E]. rewrite E. cbv zeta. cbn [mh_length].
  replace (nlen (firstn (k - 11) (SerializeBody v m)) <? nlen (SerializeBody v m)) with true; [reflexivity|].
  symmetry. apply N.ltb_lt. unfold nlen. rewrite firstn_length. lia.
Qed.
Lemma cut_stream v syncing msgs k : Forall (fun m => message_ok Blake2b features_of v m /\ fits v m /\ ordinary m) msgs ->
  exists j, recv v syncing (firstn k (flat_map (frame v) msgs)) = (filter (wanted syncing) (firstn j msgs), Waiting).
Proof.
  intros A. revert k. induction A as [|m l (H1 & H2 & H3) HL IH]; intros k; cbn [flat_map].
  - exists 0%nat. rewrite firstn_nil. reflexivity.
  - destruct (Nat.lt_ge_cases k (length (frame v m))) as [L|L].
    + exists 0%nat. rewrite firstn_app. replace (k - length (frame v m))%nat with 0%nat by lia. cbn [firstn filter]. rewrite app_nil_r.
      apply cut_one; assumption.
    + rewrite firstn_app, (firstn_all2 (frame v m)) by exact L. destruct (IH (k - length (frame v m))%nat) as [j E].
      exists (S j). rewrite (stream_one Blake2b features_of magic1 magic2 magic_bytes v syncing m _ H1 H2 H3), E. cbn [fst snd firstn filter].
      destruct (wanted syncing m); reflexivity.
Qed.

(** * Handshakes *)
Lemma handshake_header t body rest : t < 256 -> nlen body <= body_limit t ->
  exists b, nlen (header_bytes magic1 magic2 t (nlen body) ++ body ++ rest) <? HEADER_LENGTH = false /\
    MessageHeader_Deserialize magic1 magic2 (mkBB 0 (firstn 11 (header_bytes magic1 magic2 t (nlen body) ++ body ++ rest)) 1) = Ret (mkMessageHeader t (nlen body), b) /\
    skipn 11 (header_bytes magic1 magic2 t (nlen body) ++ body ++ rest) = body ++ rest /\
    (nlen (body ++ rest) <? nlen body) = false /\ firstn (N.to_nat (nlen body)) (body ++ rest) = body.
Proof.
  intros H1 H2. destruct (header_read magic1 magic2 magic_bytes t (nlen body) H1 H2) as [b E]. exists b. repeat split.
  - apply N.ltb_ge. unfold nlen, HEADER_LENGTH. rewrite app_length, header_bytes_long. lia.
  - rewrite (firstn_exact (header_bytes magic1 magic2 _ _) _ 11 eq_refl). exact E.
  - apply N.ltb_ge. unfold nlen. rewrite app_length. lia.
  - apply firstn_exact. unfold nlen. lia.
Qed.
Lemma hand_received self local v h rest : hand_ok h -> fits v (MHand h) ->
  InboundHandshake magic1 magic2 self local (frame v (MHand h) ++ rest) =
    if hd_nonce h =? self then Throw else Ret (h, N.min local (hd_version h)).
Proof.
  intros H F. unfold fits in F. cbn [GetMessageType] in F.
  rewrite frame_split, <- app_assoc. cbn [GetMessageType].
  destruct (handshake_header T_Hand (SerializeBody v (MHand h)) rest ltac:(reflexivity) F) as (b & E1 & E2 & E3 & E4 & E5).
  unfold InboundHandshake. rewrite E1, E2, E3. cbn [obind fst mh_length mh_type]. rewrite E4. cbv zeta. rewrite E5.
  change (negb (T_Hand =? T_Hand)) with false. cbv iota.
  rewrite (read_all 1 Hand_Deserialize (SerializeBody v (MHand h)) h (dec_hand 1 h H)) by (pose proof (limit_small T_Hand); lia).
  reflexivity.
Qed.
Lemma shake_received local v s rest : shake_ok s -> fits v (MShake s) ->
  OutboundHandshake magic1 magic2 local (frame v (MShake s) ++ rest) = Ret (s, N.min local (sh_version s)).
Proof.
  intros H F. unfold fits in F. cbn [GetMessageType] in F.
  rewrite frame_split, <- app_assoc. cbn [GetMessageType].
  destruct (handshake_header T_Shake (SerializeBody v (MShake s)) rest ltac:(reflexivity) F) as (b & E1 & E2 & E3 & E4 & E5).
  unfold OutboundHandshake. rewrite E1, E2, E3. cbn [obind fst mh_length mh_type]. rewrite E4. cbv zeta. rewrite E5.
  change (negb (T_Shake =? T_Shake)) with false. cbv iota.
  rewrite (read_all 1 Shake_Deserialize (SerializeBody v (MShake s)) s (dec_shake 1 s H)) by (pose proof (limit_small T_Shake); lia).
  reflexivity.
Qed.
(** 38 zeros, then the length of the user agent: 2^64 - 46. *)
Definition bad_hand : bytes := repeat 0 38 ++ [255; 255; 255; 255; 255; 255; 255; 210].
Lemma bad_hand_faults self local rest :
  InboundHandshake magic1 magic2 self local (header_bytes magic1 magic2 1 46 ++ bad_hand ++ rest) = Fault.
Proof.
  destruct (handshake_header 1 bad_hand rest ltac:(reflexivity) ltac:(vm_compute; discriminate)) as (b & E1 & E2 & E3 & E4 & E5).
  change (nlen bad_hand) with 46 in *. unfold InboundHandshake. rewrite E1, E2, E3. cbn [obind fst mh_length mh_type]. rewrite E4. cbv zeta. rewrite E5.
  change (negb (1 =? T_Hand)) with false. cbv iota.
  replace (Hand_Deserialize (mkBB 0 bad_hand 1)) with (@Fault (Hand * bytebuffer)) by (vm_compute; reflexivity). reflexivity.
Qed.
(** 16 zeros, then the same length, for an answer. *)
Definition bad_shake : bytes := repeat 0 16 ++ [255; 255; 255; 255; 255; 255; 255; 232].
Lemma bad_shake_faults local rest :
  OutboundHandshake magic1 magic2 local (header_bytes magic1 magic2 2 24 ++ bad_shake ++ rest) = Fault.
Proof.
  destruct (handshake_header 2 bad_shake rest ltac:(reflexivity) ltac:(vm_compute; discriminate)) as (b & E1 & E2 & E3 & E4 & E5).
  change (nlen bad_shake) with 24 in *. unfold OutboundHandshake. rewrite E1, E2, E3. cbn [obind fst mh_length mh_type]. rewrite E4. cbv zeta. rewrite E5.
  change (negb (2 =? T_Shake)) with false. cbv iota.
  replace (Shake_Deserialize (mkBB 0 bad_shake 1)) with (@Fault (Shake * bytebuffer)) by (vm_compute; reflexivity). reflexivity.
Qed.
Lemma trailing v syncing d h extra : d < W64 -> h < W64 -> (length extra <= 48)%nat ->
  recv v syncing (header_bytes magic1 magic2 3 (N.of_nat (16 + length extra)) ++ (Append 8 d ++ Append 8 h ++ extra)) = ([MPing d h], Waiting).
Proof.
  intros H1 H2 H3. unfold receive.
  rewrite <- (app_nil_r (Append 8 d ++ Append 8 h ++ extra)).
  rewrite (round Blake2b features_of magic1 magic2 magic_bytes); [|reflexivity | cbn [body_limit]; lia | unfold nlen; rewrite !app_length, !Append_length; lia].
  assert (D : decodes v (decode Blake2b features_of syncing 3) (Append 8 d ++ Append 8 h) (Some (MPing d h))).
  { cbn [decode]. apply dec_bind with d; [apply dec_u64, H1|]. apply dec_last with h; [apply dec_u64, H2 | reflexivity]. }
  specialize (D [] extra). cbn [app length] in D. change (N.of_nat 0) with 0 in D. rewrite <- app_assoc in D.
  rewrite D by (rewrite !app_length, !Append_length; lia). cbn [fst snd].
  replace (recv_from _ v syncing []) with (@nil message, Waiting) by (rewrite app_length, header_bytes_long; reflexivity). reflexivity.
Qed.
End Streams.
Lemma memory v n : n < W64 -> exists body b', length body = 49%nat /\
  (let! _ := ReadBigInteger 32 in Segment_reserves) (mkBB 0 body v) = Ret (8 * n, b').
Proof.
  intros H. exists (repeat 0 32 ++ repeat 0 9 ++ Append 8 n).
  assert (D : decodes v (let! _ := ReadBigInteger 32 in Segment_reserves) (repeat 0 32 ++ repeat 0 9 ++ Append 8 n) (8 * n)).
  { apply dec_bind with (repeat 0 32); [apply dec_hash; reflexivity|]. unfold Segment_reserves.
    apply dec_bind with (mkSegmentId 0 0); [apply (dec_segment_id v (mkSegmentId 0 0)); split; reflexivity|].
    apply dec_last with n; [apply dec_u64, H | reflexivity]. }
  apply read_all in D; [|reflexivity]. eexists. split; [reflexivity|]. exact D.
Qed.
