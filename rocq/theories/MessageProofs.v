(** Proofs about the messages between peers (C53). *)
From Verif Require Import Base Bytes FileModel SerialModel SerialSpec SerialProofs ConsensusModel CodecModel CodecSpec CodecProofs MessageModel MessageSpec.
Local Open Scope N_scope.

Lemma type_cases (P : N -> Prop) : P 0 -> P 1 -> P 2 -> P 3 -> P 4 -> P 5 -> P 6 -> P 7 -> P 8 -> P 9 -> P 10 -> P 11 -> P 12 -> P 13 -> P 14 ->
  P 15 -> P 16 -> P 17 -> P 18 -> P 19 -> P 20 -> P 21 -> P 22 -> P 23 -> P 24 -> P 25 -> P 26 -> P 27 -> P 28 -> (forall t, 28 < t -> P t) -> forall t, P t.
Proof.
  intros. destruct (N.lt_ge_cases 28 t) as [L|L]; [auto|].
  assert (E : t = 0 \/ t = 1 \/ t = 2 \/ t = 3 \/ t = 4 \/ t = 5 \/ t = 6 \/ t = 7 \/ t = 8 \/ t = 9 \/ t = 10 \/ t = 11 \/ t = 12 \/ t = 13 \/ t = 14 \/
    t = 15 \/ t = 16 \/ t = 17 \/ t = 18 \/ t = 19 \/ t = 20 \/ t = 21 \/ t = 22 \/ t = 23 \/ t = 24 \/ t = 25 \/ t = 26 \/ t = 27 \/ t = 28) by lia.
  repeat (destruct E as [-> | E]; [assumption|]). rewrite E. assumption.
Qed.
Lemma big_type_limit t : 28 < t -> GetMaximumSize t = 0 /\ body_limit t = 0.
Proof.
  intros L. destruct t as [|p]; [lia|].
  do 5 (destruct p as [p|p|]; try (exfalso; lia); try (split; reflexivity)).
Qed.
Lemma limit_eq t : mul64 (GetMaximumSize t) 4 = body_limit t.
Proof.
  apply (type_cases (fun t => mul64 (GetMaximumSize t) 4 = body_limit t)); try (vm_compute; reflexivity).
  intros u L. destruct (big_type_limit u L) as [-> ->]. reflexivity.
Qed.
Lemma limit_small t : body_limit t <= 10784256.
Proof.
  apply (type_cases (fun t => body_limit t <= 10784256)); try (cbn; lia).
  intros u L. destruct (big_type_limit u L) as [_ ->]. lia.
Qed.

(** * Decoders *)
Lemma dec_seq {A B} v (r : reader A) (k : A -> reader B) bs bs1 bs2 a b : bs = bs1 ++ bs2 ->
  decodes v r bs1 a -> decodes v (k a) bs2 b -> decodes v (let! x := r in k x) bs b.
Proof. intros ->. apply dec_bind. Qed.
Lemma dec_hash v h : hash_ok h -> decodes v (ReadBigInteger 32) h h.
Proof. intros H. apply dec_vector. rewrite H. reflexivity. Qed.
Lemma dec_u8 v n : n < 256 -> decodes v ReadU8 (Append 1 n) n.
Proof. intros H. apply dec_be. exact H. Qed.
Lemma dec_u16 v n : n < W16 -> decodes v ReadU16 (Append 2 n) n.
Proof. intros H. apply dec_be. exact H. Qed.
Lemma dec_u32 v n : n < W32 -> decodes v ReadU32 (Append 4 n) n.
Proof. intros H. apply dec_be. exact H. Qed.
Lemma dec_u64 v n : n < W64 -> decodes v ReadU64 (Append 8 n) n.
Proof. intros H. apply dec_be. exact H. Qed.
Lemma dec_ip v a : ip_ok a -> decodes v IPAddress_Deserialize (IPAddress_Serialize a) a.
Proof.
  intros H. unfold IPAddress_Deserialize, IPAddress_Serialize. destruct a as [b|b]; cbn [ip_ok] in H.
  - apply dec_bind with 0; [apply dec_u8; lia|]. apply dec_last with b; [apply dec_vector; rewrite H; reflexivity | reflexivity].
  - apply dec_bind with 1; [apply dec_u8; lia|]. apply dec_last with b; [apply dec_vector; rewrite H; reflexivity | reflexivity].
Qed.
Lemma dec_address v s : address_ok s -> decodes v SocketAddress_Deserialize (SocketAddress_Serialize s) s.
Proof.
  intros [H1 H2]. destruct s as [a p]. cbn [m_ipAddress m_port] in *. unfold SocketAddress_Deserialize, SocketAddress_Serialize.
  cbn [m_ipAddress m_port]. apply dec_bind with a; [apply dec_ip; exact H1|]. apply dec_last with p; [apply dec_u16; exact H2 | reflexivity].
Qed.
Lemma dec_segment_id v i : segment_id_ok i -> decodes v SegmentId_Deserialize (SegmentId_Serialize i) i.
Proof.
  intros [H1 H2]. destruct i as [h x]. cbn [si_height si_index] in *. unfold SegmentId_Deserialize, SegmentId_Serialize.
  cbn [si_height si_index]. apply dec_bind with h; [apply dec_u8; exact H1|]. apply dec_last with x; [apply dec_u64; exact H2 | reflexivity].
Qed.
Lemma hashes_long l : Forall hash_ok l -> length (flat_map AppendBigInteger l) = (32 * length l)%nat.
Proof.
  induction 1 as [|h l H HL IH]; [reflexivity|]. cbn [flat_map length]. rewrite app_length, IH. unfold AppendBigInteger. rewrite H. lia.
Qed.
Lemma appends_long k l : length (flat_map (Append k) l) = (k * length l)%nat.
Proof. induction l as [|x l IH]; cbn [flat_map length]; [lia|]. rewrite app_length, IH, Append_length. lia. Qed.
Lemma dec_proof v p : Forall hash_ok p -> decodes v SegmentProof_Deserialize (SegmentProof_Serialize p) p.
Proof.
  intros H. apply dec_long. unfold SegmentProof_Serialize. intros L. rewrite app_length, (hashes_long p H) in L.
  unfold SegmentProof_Deserialize. apply dec_bind with (nlen p); [apply dec_u64; unfold nlen; lia|].
  apply dec_counted. revert H. apply Forall_impl. intros h. apply dec_hash.
Qed.
Lemma dec_segment {T} v (leaf : reader T) enc (leaf_ok : T -> Prop) s :
  (forall x, leaf_ok x -> decodes v leaf (enc x) x) -> segment_ok leaf_ok s ->
  decodes v (Segment_Deserialize leaf) (Segment_Serialize enc s) s.
Proof.
  intros HL (I1 & E1 & E2 & F1 & F2 & F3 & F4 & F5). apply dec_long. destruct s as [id hp hs lp ls pr].
  cbn [sg_id sg_hash_pos sg_hashes sg_leaf_pos sg_leaves sg_proof] in *. unfold Segment_Serialize, Segment_Deserialize.
  cbn [sg_id sg_hash_pos sg_hashes sg_leaf_pos sg_leaves sg_proof]. intros L. rewrite !app_length, !appends_long in L.
  assert (L1 : nlen hp < W64) by (unfold nlen; lia). assert (L2 : nlen lp < W64) by (unfold nlen; lia). clear L.
  apply dec_bind with id; [apply dec_segment_id; exact I1|].
  apply dec_bind with (nlen hp); [apply dec_u64; exact L1|].
  apply dec_bind with hp; [apply dec_counted; revert F1; apply Forall_impl; intros p; apply dec_u64|].
  assert (X1 : nlen hp = nlen hs) by (unfold nlen; rewrite E1; reflexivity). rewrite X1.
  apply dec_bind with hs; [apply dec_counted; revert F2; apply Forall_impl; intros p; apply dec_hash|].
  apply dec_bind with (nlen lp); [apply dec_u64; exact L2|].
  apply dec_bind with lp; [apply dec_counted; revert F3; apply Forall_impl; intros p; apply dec_u64|].
  assert (X2 : nlen lp = nlen ls) by (unfold nlen; rewrite E2; reflexivity). rewrite X2.
  apply dec_bind with ls; [apply dec_counted; revert F4; apply Forall_impl; exact HL|].
  apply dec_last with pr; [apply dec_proof; exact F5 | reflexivity].
Qed.
Lemma flat_map_single l : Forall (fun x => x < 256) l -> flat_map (Append 1) l = l.
Proof.
  induction 1 as [|x l H HL IH]; [reflexivity|]. cbn [flat_map]. rewrite IH. unfold Append. cbn [le_bytes rev app].
  rewrite N.mod_small by lia. reflexivity.
Qed.
Lemma dec_bitmap_block v b : bitmap_block_ok b -> decodes v BitmapBlock_Deserialize (BitmapBlock_Serialize b) b.
Proof.
  intros H. destruct b as [c bits|c m ps]; cbn [bitmap_block_ok] in H; unfold BitmapBlock_Deserialize, BitmapBlock_Serialize.
  - destruct H as (H1 & H2 & H3). apply dec_bind with c; [apply dec_u8; exact H1|].
    apply dec_bind with 0; [apply dec_u8; lia|]. cbn [N.ltb N.compare N.eqb].
    apply dec_last with bits; [|reflexivity]. unfold AppendByteVector. cbn [AppendLength app].
    rewrite <- H2. rewrite <- (flat_map_single bits H3) at 2. apply dec_many. revert H3. apply Forall_impl. intros x. apply dec_u8.
  - destruct H as (H1 & H2 & H3 & H4). apply dec_bind with c; [apply dec_u8; exact H1|].
    apply dec_bind with m; [apply dec_u8; lia|].
    replace (2 <? m) with false by (symmetry; apply N.ltb_ge; lia). replace (m =? 0) with false by (symmetry; apply N.eqb_neq; lia).
    assert (X : nlen ps mod W16 = nlen ps) by (apply N.mod_small; exact H3). rewrite X.
    apply dec_bind with (nlen ps); [apply dec_u16; exact H3|].
    apply dec_last with ps; [|reflexivity]. apply dec_counted. revert H4. apply Forall_impl. intros x. apply dec_u16.
Qed.
Lemma dec_bitmap_segment v s : bitmap_segment_ok s -> decodes v BitmapSegment_Deserialize (BitmapSegment_Serialize s) s.
Proof.
  intros (H1 & H2 & H3 & H4). destruct s as [id bl pr]. cbn [bs_id bs_blocks bs_proof] in *.
  unfold BitmapSegment_Deserialize, BitmapSegment_Serialize. cbn [bs_id bs_blocks bs_proof].
  apply dec_bind with id; [apply dec_segment_id; exact H1|].
  assert (X : nlen bl mod W16 = nlen bl) by (apply N.mod_small; exact H2). rewrite X.
  apply dec_bind with (nlen bl); [apply dec_u16; exact H2|].
  apply dec_bind with bl; [apply dec_counted; revert H3; apply Forall_impl; intros x; apply dec_bitmap_block|].
  apply dec_last with pr; [apply dec_proof; exact H4 | reflexivity].
Qed.
Lemma dec_hand v h : hand_ok h -> decodes v Hand_Deserialize (SerializeBody v (MHand h)) h.
Proof.
  intros (H1 & H2 & H3 & H4 & H5 & H6 & H7). apply dec_long. destruct h as [a b c d e f g u].
  cbn [hd_version hd_capabilities hd_nonce hd_hash hd_totalDifficulty hd_sender hd_receiver] in *.
  cbn [SerializeBody hd_version hd_capabilities hd_nonce hd_hash hd_totalDifficulty hd_sender hd_receiver hd_userAgent].
  intros L. rewrite !app_length in L. unfold AppendVarStr in L. rewrite app_length in L.
  unfold Hand_Deserialize.
  apply dec_bind with a; [apply dec_u32; exact H1|].
  apply dec_bind with b; [apply dec_u32; exact H2|].
  apply dec_bind with c; [apply dec_u64; exact H3|].
  apply dec_bind with e; [apply dec_u64; exact H5|].
  apply dec_bind with f; [apply dec_address; exact H6|].
  apply dec_bind with g; [apply dec_address; exact H7|].
  apply dec_bind with u; [apply dec_varstr; lia|].
  apply dec_last with d; [apply dec_hash; exact H4 | reflexivity].
Qed.
Lemma dec_shake v s : shake_ok s -> decodes v Shake_Deserialize (SerializeBody v (MShake s)) s.
Proof.
  intros (H1 & H2 & H3 & H4). apply dec_long. destruct s as [a b c d u].
  cbn [sh_version sh_capabilities sh_hash sh_totalDifficulty] in *.
  cbn [SerializeBody sh_version sh_capabilities sh_hash sh_totalDifficulty sh_userAgent].
  intros L. rewrite !app_length in L. unfold AppendVarStr in L. rewrite app_length in L.
  unfold Shake_Deserialize.
  apply dec_bind with a; [apply dec_u32; exact H1|].
  apply dec_bind with b; [apply dec_u32; exact H2|].
  apply dec_bind with d; [apply dec_u64; exact H4|].
  apply dec_bind with u; [apply dec_varstr; lia|].
  apply dec_last with c; [apply dec_hash; exact H3 | reflexivity].
Qed.

Section With.
Variable Blake2b : bytes -> bytes.
Variable features_of : bytes -> N.
Notation dec := (decode Blake2b features_of).

Lemma counted_mod {A} (l : list A) (n : N) (w : N) : N.of_nat (length l) <= n -> n < w -> nlen l mod w = nlen l /\ nlen l < w.
Proof. intros H1 H2. assert (nlen l < w) by (unfold nlen; lia). split; [apply N.mod_small|]; assumption. Qed.

Lemma dec_message v syncing m : message_ok Blake2b features_of v m -> fits v m -> ordinary m ->
  wanted syncing m = true -> decodes v (dec syncing (GetMessageType m)) (SerializeBody v m) (Some m).
Proof.
  intros H F O W. unfold fits in F. destruct m; cbn [message_ok ordinary wanted] in *; try discriminate; try contradiction;
    try (apply negb_true_iff in W; subst syncing);
    cbn [GetMessageType decode SerializeBody] in *; cbv beta zeta in *;
    unfold T_Ping, T_Pong, T_GetPeerAddrs, T_PeerAddrs, T_GetHeaders, T_Header, T_Headers, T_GetBlock, T_Block, T_GetCompactBlock, T_CompactBlock,
      T_StemTransaction, T_Transaction, T_TxHashSetRequest, T_BanReason, T_GetTransaction, T_TransactionKernel, T_OutputBitmapSegment, T_OutputSegment,
      T_RangeProofSegment, T_KernelSegment in *; cbn [decode body_limit] in *; cbv beta zeta in *.
  - apply dec_bind with totalDifficulty; [apply dec_u64, H|]. apply dec_last with height; [apply dec_u64, H | reflexivity].
  - apply dec_bind with totalDifficulty; [apply dec_u64, H|]. apply dec_last with height; [apply dec_u64, H | reflexivity].
  - apply dec_last with capabilities; [apply dec_u32, H | reflexivity].
  - (* peer addresses *)
    assert (L : N.of_nat (length addresses) <= 19472).
    { rewrite app_length in F. assert (length addresses <= length (flat_map SocketAddress_Serialize addresses))%nat; [|lia].
      apply flat_map_long. intros a _. unfold SocketAddress_Serialize. rewrite app_length, Append_length. lia. }
    destruct (counted_mod addresses _ W32 L ltac:(reflexivity)) as [E B]. rewrite E.
    apply dec_bind with (nlen addresses); [apply dec_u32; exact B|].
    apply dec_last with addresses; [|reflexivity]. apply dec_counted. revert H. apply Forall_impl. intros a. apply dec_address.
  - (* hashes *)
    assert (L : N.of_nat (length hashes) <= 80). { rewrite app_length, (hashes_long _ H), Append_length in F. lia. }
    destruct (counted_mod hashes _ W8 L ltac:(reflexivity)) as [E B]. rewrite E.
    apply dec_bind with (nlen hashes); [apply dec_u8; exact B|].
    apply dec_last with hashes; [|reflexivity]. apply dec_counted. revert H. apply Forall_impl. intros a. apply dec_hash.
  - apply dec_last with h; [apply dec_header, H | reflexivity].
  - (* headers *)
    assert (L : 32 * N.of_nat (length hs) <= 747528).
    { rewrite app_length in F.
      assert (X : (32 * length hs <= length (flat_map BlockHeader_Serialize hs))%nat); [|lia].
      clear F. induction H as [|h l Hh Hl IH]; [cbn; lia|]. cbn [flat_map length]. rewrite app_length.
      assert (32 <= length (BlockHeader_Serialize h))%nat; [|lia].
      rewrite header_serialize_split, app_length. unfold GetPreProofOfWork. rewrite !app_length.
      destruct Hh as [(_ & _ & _ & X & _) _]. unfold AppendBigInteger. rewrite X. lia. }
    destruct (counted_mod hs 23361 W16 ltac:(lia) ltac:(reflexivity)) as [E B]. rewrite E.
    apply dec_bind with (nlen hs); [apply dec_u16; exact B|].
    apply dec_last with hs; [|reflexivity]. apply dec_counted. revert H. apply Forall_impl. intros a. apply dec_header.
  - apply dec_last with hash; [apply dec_hash, H | reflexivity].
  - apply dec_last with b; [apply dec_block; apply H | reflexivity].
  - apply dec_last with hash; [apply dec_hash, H | reflexivity].
  - apply dec_last with c; [apply dec_compact; apply H | reflexivity].
  - apply dec_last with t; [apply dec_tx; apply H | reflexivity].
  - apply dec_last with t; [apply dec_tx; apply H | reflexivity].
  - apply dec_bind with hash; [apply dec_hash, H|]. apply dec_last with height; [apply dec_u64, H | reflexivity].
  - apply dec_last with reason; [apply dec_u32, H | reflexivity].
  - apply dec_last with hash; [apply dec_hash, H | reflexivity].
  - apply dec_last with hash; [apply dec_hash, H | reflexivity].
  - destruct H as (T & H1 & H2).
    assert (D : decodes v (let! hash0 := ReadBigInteger 32 in let! id0 := SegmentId_Deserialize in rret (Some (MGetSegment t hash0 id0)))
      (AppendBigInteger hash ++ SegmentId_Serialize id) (Some (MGetSegment t hash id))).
    { apply dec_bind with hash; [apply dec_hash, H1|]. apply dec_last with id; [apply dec_segment_id, H2 | reflexivity]. }
    destruct T as [-> | [-> | [-> | ->]]]; exact D.
  - destruct H as (H1 & H2 & H3). apply dec_bind with hash; [apply dec_hash, H1|].
    apply dec_bind with s; [apply dec_bitmap_segment, H2|]. apply dec_last with root; [apply dec_hash, H3 | reflexivity].
  - destruct H as (H1 & H2 & H3). apply dec_bind with hash; [apply dec_hash, H1|].
    apply dec_bind with s; [|apply dec_last with root; [apply dec_hash, H3 | reflexivity]].
    apply dec_segment with (2 := H2). intros [f c] [X Y]. apply dec_output_id; assumption.
  - destruct H as (H1 & H2). apply dec_bind with hash; [apply dec_hash, H1|].
    apply dec_last with s; [|reflexivity]. apply dec_segment with (2 := H2). intros p. apply dec_rangeproof.
  - destruct H as (H1 & H2). apply dec_bind with hash; [apply dec_hash, H1|].
    apply dec_last with s; [|reflexivity]. apply dec_segment with (2 := H2). intros p. apply dec_kernel.
Qed.
Lemma unwanted_dropped syncing m bs : ordinary m -> wanted syncing m = false -> dec syncing (GetMessageType m) bs = Ret (None, bs).
Proof.
  intros O W. destruct m; cbn [ordinary wanted] in *; try discriminate; try contradiction; try reflexivity;
    destruct syncing; cbn in W; try discriminate; reflexivity.
Qed.

(** * Streams *)
Variables magic1 magic2 : N.
Hypothesis magic_bytes : magic1 < 256 /\ magic2 < 256.
Notation recv := (receive Blake2b features_of magic1 magic2).
Notation recv_from := (receive_from Blake2b features_of magic1 magic2).
Notation frame := (Message_Serialize magic1 magic2).

Definition header_bytes (t len : N) : bytes := [magic1; magic2] ++ Append 1 t ++ Append 8 len.
Lemma header_bytes_long t len : length (header_bytes t len) = 11%nat.
Proof. reflexivity. Qed.
Lemma frame_split v m : frame v m = header_bytes (GetMessageType m) (nlen (SerializeBody v m)) ++ SerializeBody v m.
Proof. unfold Message_Serialize, header_bytes, AppendByteVector. cbn [AppendLength app]. rewrite <- !app_assoc. reflexivity. Qed.
Lemma dec_message_header v t len : t < 256 -> len <= body_limit t ->
  decodes v (MessageHeader_Deserialize magic1 magic2) (header_bytes t len) (mkMessageHeader t len).
Proof.
  intros H1 H2. pose proof (limit_small t) as S. unfold MessageHeader_Deserialize, header_bytes.
  change ([magic1; magic2]) with ([magic1] ++ [magic2]). rewrite <- app_assoc.
  apply dec_bind with magic1.
  { replace [magic1] with (Append 1 magic1) by (unfold Append; cbn [le_bytes rev app]; rewrite N.mod_small by lia; reflexivity). apply dec_u8. lia. }
  apply dec_bind with magic2.
  { replace [magic2] with (Append 1 magic2) by (unfold Append; cbn [le_bytes rev app]; rewrite N.mod_small by lia; reflexivity). apply dec_u8. lia. }
  rewrite !N.eqb_refl. cbn [negb orb].
  apply dec_bind with t; [apply dec_u8; exact H1|].
  rewrite <- (app_nil_r (Append 8 len)). apply dec_bind with len; [apply dec_u64; lia|].
  rewrite limit_eq. replace (body_limit t <? len) with false by (symmetry; apply N.ltb_ge; exact H2). apply dec_ret.
Qed.
Lemma read_all {A} v (r : reader A) bs a : decodes v r bs a -> N.of_nat (length bs) < W64 -> r (mkBB 0 bs v) = Ret (a, mkBB (nlen bs) bs v).
Proof.
  intros D L. specialize (D [] []). cbn [app length] in D. rewrite app_nil_r in D. change (N.of_nat 0) with 0 in D. rewrite (D L). reflexivity.
Qed.
Lemma firstn_exact {A} (a b : list A) n : length a = n -> firstn n (a ++ b) = a.
Proof. intros <-. rewrite firstn_app, Nat.sub_diag, firstn_all. cbn. apply app_nil_r. Qed.
Lemma skipn_exact {A} (a b : list A) n : length a = n -> skipn n (a ++ b) = b.
Proof. intros <-. rewrite skipn_app, Nat.sub_diag, skipn_all. reflexivity. Qed.

Lemma type_byte v m : message_ok Blake2b features_of v m -> GetMessageType m < 256.
Proof.
  intros H. destruct m; try reflexivity. cbn [message_ok GetMessageType] in *. destruct H as (T & _). lia.
Qed.

Lemma header_read t len : t < 256 -> len <= body_limit t ->
  exists b, MessageHeader_Deserialize magic1 magic2 (mkBB 0 (header_bytes t len) 1) = Ret (mkMessageHeader t len, b).
Proof. intros H1 H2. eexists. apply (read_all 1 _ _ _ (dec_message_header 1 t len H1 H2)). reflexivity. Qed.

(** One round of the loop, once the header is known. *)
Lemma round fuel v syncing t len body rest : t < 256 -> len <= body_limit t -> nlen body = len ->
  recv_from (S fuel) v syncing (header_bytes t len ++ body ++ rest) =
  match dec syncing t (mkBB 0 body v) with
  | Throw => ([], Deadlocked)
  | Fault => ([], Crashed)
  | Ret (None, _) => recv_from fuel v syncing rest
  | Ret (Some (MTxHashSetArchive hash height size), _) => ([MTxHashSetArchive hash height size], HandedOver rest)
  | Ret (Some m, _) => (m :: fst (recv_from fuel v syncing rest), snd (recv_from fuel v syncing rest))
  end.
Proof.
  intros H1 H2 H3. destruct (header_read t len H1 H2) as [b E].
  cbn [receive_from]. replace (nlen _ <? HEADER_LENGTH) with false.
  2:{ symmetry. apply N.ltb_ge. unfold nlen, HEADER_LENGTH. rewrite app_length, header_bytes_long. lia. }
  rewrite (firstn_exact (header_bytes t len) (body ++ rest) 11 eq_refl), (skipn_exact (header_bytes t len) (body ++ rest) 11 eq_refl), E.
  cbn [mh_length mh_type]. unfold nlen in H3.
  replace (nlen (body ++ rest) <? len) with false.
  2:{ symmetry. apply N.ltb_ge. unfold nlen. rewrite app_length. lia. }
  rewrite (firstn_exact body rest (N.to_nat len)) by lia. rewrite (skipn_exact body rest (N.to_nat len)) by lia. reflexivity.
Qed.

Lemma fuel_enough v syncing : forall f1 f2 s, (length s < f1)%nat -> (length s < f2)%nat -> recv_from f1 v syncing s = recv_from f2 v syncing s.
Proof.
  induction f1 as [|f1 IH]; intros f2 s L1 L2; [lia|]. destruct f2 as [|f2]; [lia|]. cbn [receive_from].
  destruct (N.ltb_spec (nlen s) HEADER_LENGTH) as [L|L]; [reflexivity|].
  destruct (MessageHeader_Deserialize magic1 magic2 _) as [[h b]| |]; [|reflexivity|reflexivity]. cbv zeta.
  destruct (nlen (skipn 11 s) <? mh_length h); [reflexivity|].
  assert (K : (length (skipn (N.to_nat (mh_length h)) (skipn 11 s)) < length s)%nat).
  { rewrite !skipn_length. unfold nlen, HEADER_LENGTH in L. lia. }
  rewrite (IH f2 (skipn (N.to_nat (mh_length h)) (skipn 11 s))) by lia. reflexivity.
Qed.

Lemma stream_one v syncing m rest : message_ok Blake2b features_of v m -> fits v m -> ordinary m ->
  recv v syncing (frame v m ++ rest) =
    ((if wanted syncing m then [m] else []) ++ fst (recv v syncing rest), snd (recv v syncing rest)).
Proof.
  intros H F O. pose proof (type_byte v m H) as T. unfold fits in F. pose proof (limit_small (GetMessageType m)) as S.
  unfold receive. rewrite frame_split, <- app_assoc. rewrite round; [|exact T|exact F|reflexivity].
  rewrite (fuel_enough v syncing (length (header_bytes (GetMessageType m) (nlen (SerializeBody v m)) ++ SerializeBody v m ++ rest)) (Datatypes.S (length rest)) rest)
    by (rewrite ?app_length, ?header_bytes_long; lia).
  destruct (wanted syncing m) eqn:W.
  - rewrite (read_all v _ _ _ (dec_message v syncing m H F O W)) by lia.
    destruct m; try reflexivity. cbn [ordinary] in O. contradiction.
  - rewrite (unwanted_dropped syncing m _ O W). cbn [app]. destruct (recv_from _ v syncing rest). reflexivity.
Qed.
Lemma stream_many v syncing msgs rest : Forall (fun m => message_ok Blake2b features_of v m /\ fits v m /\ ordinary m) msgs ->
  recv v syncing (flat_map (frame v) msgs ++ rest) =
    (filter (wanted syncing) msgs ++ fst (recv v syncing rest), snd (recv v syncing rest)).
Proof.
  induction 1 as [|m l (H1 & H2 & H3) HL IH]; cbn [flat_map filter app]; [apply surjective_pairing|].
  rewrite <- app_assoc, (stream_one v syncing m _ H1 H2 H3), IH. cbn [fst snd].
  destruct (wanted syncing m); reflexivity.
Qed.

(** What has been delivered stays delivered when more arrives. *)
Lemma stream_monotone v syncing t : forall f s, (length (s ++ t) < f)%nat ->
  exists more, fst (recv_from f v syncing (s ++ t)) = fst (recv_from f v syncing s) ++ more.
Proof.
  induction f as [|f IH]; intros s L; [lia|]. cbn [receive_from].
  destruct (N.ltb_spec (nlen s) HEADER_LENGTH) as [B|B]; [eexists; reflexivity|].
  assert (B11 : (11 <= length s)%nat) by (unfold nlen, HEADER_LENGTH in B; lia).
  replace (nlen (s ++ t) <? HEADER_LENGTH) with false by (symmetry; apply N.ltb_ge; unfold nlen, HEADER_LENGTH in *; rewrite app_length; lia).
  replace (firstn 11 (s ++ t)) with (firstn 11 s).
  2:{ rewrite firstn_app. replace (11 - length s)%nat with 0%nat by lia. cbn [firstn]. symmetry. apply app_nil_r. }
  destruct (MessageHeader_Deserialize magic1 magic2 _) as [[h b]| |]; [|exists []; reflexivity|exists []; reflexivity]. cbv zeta.
  replace (skipn 11 (s ++ t)) with (skipn 11 s ++ t).
  2:{ rewrite skipn_app. replace (11 - length s)%nat with 0%nat by lia. reflexivity. }
  destruct (N.ltb_spec (nlen (skipn 11 s)) (mh_length h)) as [D|D]; [eexists; reflexivity|].
  set (r := skipn 11 s) in *. assert (Lr : (length r + 11 = length s)%nat) by (unfold r; rewrite skipn_length; lia).
  replace (nlen (r ++ t) <? mh_length h) with false by (symmetry; apply N.ltb_ge; unfold nlen in *; rewrite app_length; lia).
  assert (K : (N.to_nat (mh_length h) <= length r)%nat) by (unfold nlen in D; lia).
  replace (firstn (N.to_nat (mh_length h)) (r ++ t)) with (firstn (N.to_nat (mh_length h)) r).
  2:{ rewrite firstn_app. replace (N.to_nat (mh_length h) - length r)%nat with 0%nat by lia. cbn [firstn]. symmetry. apply app_nil_r. }
  replace (skipn (N.to_nat (mh_length h)) (r ++ t)) with (skipn (N.to_nat (mh_length h)) r ++ t).
  2:{ rewrite skipn_app. replace (N.to_nat (mh_length h) - length r)%nat with 0%nat by lia. reflexivity. }
  assert (Q : exists more, fst (recv_from f v syncing (skipn (N.to_nat (mh_length h)) r ++ t)) = fst (recv_from f v syncing (skipn (N.to_nat (mh_length h)) r)) ++ more).
  { apply IH. rewrite app_length, skipn_length. rewrite app_length in L. lia. }
  destruct Q as [more Q].
  destruct (dec syncing (mh_type h) _) as [[[m|] b']| |]; try (exists []; reflexivity).
  - destruct m; try (exists more; cbn [fst]; rewrite Q; reflexivity). exists []. reflexivity.
  - exists more. exact Q.
Qed.
End With.

(** * Every reader stays inside *)
Lemma safe_u8 : safe ReadU8. Proof. apply safe_be. lia. Qed.
Lemma safe_u16 : safe ReadU16. Proof. apply safe_be. lia. Qed.
Lemma safe_u32 : safe ReadU32. Proof. apply safe_be. lia. Qed.
Lemma safe_u64 : safe ReadU64. Proof. apply safe_be. lia. Qed.
Lemma safe_hash : safe (ReadBigInteger 32). Proof. apply safe_vector. rewrite p63. lia. Qed.
Lemma safe_address : safe SocketAddress_Deserialize.
Proof.
  unfold SocketAddress_Deserialize, IPAddress_Deserialize, ReadArray, ReadU8, ReadU16. repeat safe_step.
Qed.
Lemma safe_segment_id : safe SegmentId_Deserialize.
Proof. unfold SegmentId_Deserialize, ReadU8, ReadU64. repeat safe_step. Qed.
Lemma safe_proof : safe SegmentProof_Deserialize.
Proof. unfold SegmentProof_Deserialize, ReadU64, ReadBigInteger. repeat safe_step. Qed.
Lemma safe_segment {T} (leaf : reader T) : safe leaf -> safe (Segment_Deserialize leaf).
Proof.
  intros H. unfold Segment_Deserialize.
  repeat first [apply safe_segment_id | apply safe_proof | apply safe_u64 | apply safe_hash | exact H | apply safe_ret | apply safe_many | apply safe_bind; [|intro]].
Qed.
Lemma safe_bitmap : safe BitmapSegment_Deserialize.
Proof.
  unfold BitmapSegment_Deserialize, BitmapBlock_Deserialize.
  repeat first [apply safe_segment_id | apply safe_proof | apply safe_u8 | apply safe_u16 | apply safe_hash | apply safe_ret | apply safe_throw | apply safe_many
    | apply safe_bind; [|intro] | apply safe_if].
Qed.
Lemma safe_output_id : safe OutputIdentifier_Deserialize.
Proof. unfold OutputIdentifier_Deserialize, ReadU8, ReadBigInteger. repeat safe_step. Qed.
Lemma safe_decode H cf syncing t : t <> 0 -> safe (decode H cf syncing t).
Proof.
  revert t. apply (type_cases (fun t => t <> 0 -> safe (decode H cf syncing t)));
    try (intros E; exfalso; apply E; reflexivity);
    try (intros _; cbn [decode]; cbv beta zeta;
      repeat first [apply safe_u8 | apply safe_u16 | apply safe_u32 | apply safe_u64 | apply safe_hash | apply safe_address | apply safe_header | apply safe_block
        | apply safe_compact | apply safe_tx | apply safe_segment_id | apply safe_bitmap | apply safe_segment | apply safe_output_id | apply safe_rangeproof | apply safe_kernel
        | apply safe_ret | apply safe_many | apply safe_bind; [|intro] | apply safe_if]).
  intros t L _. destruct t as [|p]; [lia|].
  do 5 (destruct p as [p|p|]; try (exfalso; lia); try apply safe_ret).
Qed.
Lemma safe_message_header m1 m2 : safe (MessageHeader_Deserialize m1 m2).
Proof.
  unfold MessageHeader_Deserialize.
  repeat first [apply safe_u8 | apply safe_u64 | apply safe_ret | apply safe_throw | apply safe_bind; [|intro] | apply safe_if].
Qed.
(** A header that is accepted announces no more than the limit of its type. *)
Lemma header_bounded m1 m2 b h b' : MessageHeader_Deserialize m1 m2 b = Ret (h, b') -> mh_length h <= body_limit (mh_type h).
Proof.
  unfold MessageHeader_Deserialize, rbind, rret, rthrow.
  destruct (ReadU8 b) as [[x1 b1]| |]; cbn [obind fst snd]; intros E; try discriminate E.
  destruct (ReadU8 b1) as [[x2 b2]| |]; cbn [obind fst snd] in E; try discriminate E.
  destruct (negb (x1 =? m1) || negb (x2 =? m2)); [discriminate E|].
  destruct (ReadU8 b2) as [[t b3]| |]; cbn [obind fst snd] in E; try discriminate E.
  destruct (ReadU64 b3) as [[n b4]| |]; cbn [obind fst snd] in E; try discriminate E.
  rewrite limit_eq in E. destruct (N.ltb_spec (body_limit t) n) as [K|K]; [discriminate E|]. injection E as <- _. exact K.
Qed.
Lemma is_bytes_firstn n l : is_bytes l -> is_bytes (firstn n l).
Proof. intros H. revert n. induction H; intros [|n]; cbn; constructor; auto. apply IHForall. Qed.
Lemma is_bytes_skipn n l : is_bytes l -> is_bytes (skipn n l).
Proof. intros H. revert n. induction H as [|x l Hx Hl IH]; intros [|n]; cbn [skipn]; try constructor; auto. Qed.
Lemma good_start bs v : N.of_nat (length bs) < 2 ^ 63 -> good_buffer (mkBB 0 bs v).
Proof. intros H. split; cbn; [lia | exact H]. Qed.
Lemma never_crashes H cf m1 m2 v syncing : forall f s, is_bytes s -> snd (receive_from H cf m1 m2 f v syncing s) <> Crashed.
Proof.
  induction f as [|f IH]; intros s B; [discriminate|]. cbn [receive_from].
  destruct (nlen s <? HEADER_LENGTH); [discriminate|].
  assert (G : good_buffer (mkBB 0 (firstn 11 s) 1)).
  { apply good_start. pose proof (firstn_le_length 11 s). rewrite p63. lia. }
  pose proof (safe_message_header m1 m2 _ G (is_bytes_firstn 11 s B)) as S1.
  destruct (MessageHeader_Deserialize m1 m2 _) as [[h b]| |] eqn:E; [|discriminate|contradiction]. cbv zeta.
  apply header_bounded in E. pose proof (limit_small (mh_type h)) as LS.
  destruct (nlen (skipn 11 s) <? mh_length h); [discriminate|].
  set (body := firstn (N.to_nat (mh_length h)) (skipn 11 s)).
  assert (GB : good_buffer (mkBB 0 body v)).
  { apply good_start. unfold body. pose proof (firstn_le_length (N.to_nat (mh_length h)) (skipn 11 s)). rewrite p63. lia. }
  assert (BB : is_bytes body) by (apply is_bytes_firstn, is_bytes_skipn, B).
  assert (IHs : snd (receive_from H cf m1 m2 f v syncing (skipn (N.to_nat (mh_length h)) (skipn 11 s))) <> Crashed) by (apply IH; do 2 apply is_bytes_skipn; exact B).
  destruct (N.eq_dec (mh_type h) 0) as [Z|Z].
  - rewrite Z in *. cbn [body_limit] in E. assert (E0 : mh_length h = 0) by lia.
    assert (X : body = []) by (unfold body; rewrite E0; reflexivity). rewrite X. cbn [decode]. discriminate.
  - pose proof (safe_decode H cf syncing (mh_type h) Z _ GB BB) as S2.
    destruct (decode H cf syncing (mh_type h) (mkBB 0 body v)) as [[[m|] b']| |]; [|exact IHs|discriminate|contradiction].
    destruct m; try exact IHs. discriminate.
Qed.
