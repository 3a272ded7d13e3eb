(** C10 (composite formats), C12-C15: headers, transactions and blocks on the wire. *)
From Coq Require Import Sorted Permutation.
From Verif Require Import Base Bytes MMRIndexModel MMRIndexSpec FileModel SerialModel SerialSpec SerialProofs CodecModel CodecSpec CodecProofs.
Local Open Scope N_scope.

(** C10 for the composite formats: whatever bytes are received, decoding a transaction, block,
    compact block or header returns or throws and never reads outside the buffer. *)
Theorem C10_messages_stay_inside Blake2b features_of :
  safe (Transaction_Deserialize Blake2b features_of) /\ safe (FullBlock_Deserialize Blake2b features_of) /\
  safe (CompactBlock_Deserialize Blake2b) /\ safe (BlockHeader_Deserialize Blake2b).
Proof. exact (conj (safe_tx Blake2b features_of) (conj (safe_block Blake2b features_of) (conj (safe_compact Blake2b) (safe_header Blake2b)))). Qed.
Print Assumptions C10_messages_stay_inside.

(** C12. The packed encoding of 42 nonces is the little-endian number with the nonces as base-[2^e]
    digits, and decoding gives the same nonces. *)
Theorem C12_packed_format e nonces : e <= 63 -> length nonces = 42%nat -> Forall (fun x => x < 2 ^ e) nonces ->
  SerializeCycle e nonces = le_bytes (N.to_nat ((42 * e + 7) / 8)) (pack_value e nonces).
Proof. exact (cycle_format e nonces). Qed.
Print Assumptions C12_packed_format.

Theorem C12_nonces_round_trip Blake2b v e nonces :
  1 <= e <= 63 -> length nonces = 42%nat -> Forall (fun x => x < 2 ^ e) nonces ->
  decodes v (PoW_Deserialize Blake2b) (PoW_Serialize (PoW_Create Blake2b e nonces)) (PoW_Create Blake2b e nonces).
Proof. intros He L F. exact (dec_pow Blake2b v (PoW_Create Blake2b e nonces) (conj He (conj L F)) eq_refl). Qed.
Print Assumptions C12_nonces_round_trip.

Theorem C12_bad_edge_bits_rejected Blake2b b p b' : good_buffer b -> is_bytes (m_bytes b) ->
  PoW_Deserialize Blake2b b = Ret (p, b') ->
  nth_error (m_bytes b) (N.to_nat (m_index b)) = Some (m_edgeBits p) /\ 1 <= m_edgeBits p <= 63 /\
  length (m_proofNonces p) = 42%nat /\ Forall (fun n => n < 2 ^ m_edgeBits p) (m_proofNonces p).
Proof.
  intros G B E. destruct (con_pow Blake2b b p b' G B E) as (_ & _ & _ & c & _ & _ & C & HP).
  pose proof (accepted_pow_ok _ _ _ HP) as (O1 & O2 & O3). split; [|auto].
  destruct HP as (bits & -> & _). rewrite <- (firstn_skipn (N.to_nat (m_index b)) (m_bytes b)).
  destruct G as [G1 G2]. assert (L : length (firstn (N.to_nat (m_index b)) (m_bytes b)) = N.to_nat (m_index b)) by (rewrite firstn_length; lia).
  rewrite nth_error_app2 by lia. rewrite L, Nat.sub_diag, C, Append_eq. cbn [be_bytes app nth_error].
  rewrite N.mod_small by lia. reflexivity.
Qed.
Print Assumptions C12_bad_edge_bits_rejected.

Example C12_case : let ns := map (fun k => N.of_nat k * 7 + 1) (seq 0 42) in
  length ns = 42%nat /\ Forall (fun x => x < 2 ^ 29) ns /\
  DeserializeProofNonces (SerializeCycle 29 ns) 29 = Ret ns /\ length (SerializeCycle 29 ns) = 153%nat.
Proof. intros ns. split; [reflexivity|]. split; [apply all_below; vm_compute; reflexivity|]. split; vm_compute; reflexivity. Qed.

(** C13. A header with fields in range whose hash is the hash of its packed proof reads back
    identical, at any position of any buffer. *)
Theorem C13_header_round_trip Blake2b v h : header_fields_ok h ->
  BlockHeader_GetHash h = Blake2b (SerializeCycle (m_edgeBits (h_proofOfWork h)) (m_proofNonces (h_proofOfWork h))) ->
  decodes v (BlockHeader_Deserialize Blake2b) (BlockHeader_Serialize h) h.
Proof. intros H1 H2. apply dec_header. split; assumption. Qed.
Print Assumptions C13_header_round_trip.

(** An accepted header re-serializes to the bytes it came from, provided the bits of the last byte
    above the last nonce are zero; there are none when the edge bits are a multiple of four. *)
Theorem C13_reserialize_partial Blake2b b h b' : good_buffer b -> is_bytes (m_bytes b) ->
  BlockHeader_Deserialize Blake2b b = Ret (h, b') ->
  let e := m_edgeBits (h_proofOfWork h) in
  let received := firstn (N.to_nat (m_index b' - m_index b)) (skipn (N.to_nat (m_index b)) (m_bytes b)) in
  e mod 4 = 0 \/ last received 0 < 2 ^ (42 * e - 8 * ((42 * e + 7) / 8 - 1)) ->
  BlockHeader_Serialize h = received /\ header_fields_ok h /\
  BlockHeader_GetHash h = Blake2b (SerializeCycle e (m_proofNonces (h_proofOfWork h))).
Proof.
  intros G B E e received PAD.
  destruct (con_header Blake2b b h b' G B E) as (_ & _ & _ & c & L & BC & C & OK & pc & -> & HP).
  assert (R : received = GetPreProofOfWork h ++ pc).
  { unfold received. rewrite C, firstn_app, firstn_all2 by lia.
    replace (N.to_nat (m_index b' - m_index b) - length (GetPreProofOfWork h ++ pc))%nat with 0%nat by lia.
    cbn [firstn]. apply app_nil_r. }
  rewrite R in *. destruct HP as (bits & -> & Bb & Lb & D & Hh). fold e in Lb, D, PAD.
  destruct (pack_unpack e bits (m_proofNonces (h_proofOfWork h)) Bb Lb D) as (P1 & P2 & P3 & P4 & P5).
  assert (Z : SerializeCycle e (m_proofNonces (h_proofOfWork h)) = bits).
  { apply P5. destruct PAD as [PAD|PAD].
    - pose proof (le_value_bound bits Bb) as V. unfold nlen in Lb. rewrite Lb in V.
      change 256 with (2 ^ 8) in V. rewrite <- N.pow_mul_r in V.
      replace (8 * cycle_bytes_len e) with (42 * e) in V; [exact V|]. unfold cycle_bytes_len, PROOFSIZE. lia.
    - rewrite app_assoc in PAD. rewrite last_app_ne in PAD.
      + apply last_bits; auto; [lia|]. unfold cycle_bytes_len, PROOFSIZE. rewrite (N.mul_comm e 42). exact PAD.
      + intros ->. unfold nlen, cycle_bytes_len, PROOFSIZE in Lb. cbn in Lb. lia. }
  split; [|split; [exact OK|]].
  - rewrite header_serialize_split. unfold PoW_Serialize. fold e. rewrite Z. reflexivity.
  - unfold BlockHeader_GetHash. rewrite Hh, Z. reflexivity.
Qed.
Print Assumptions C13_reserialize_partial.

(** Without that proviso the claim is false: there are two different byte strings that decode to
    headers with the same fields, so the one with non-zero padding is not reproduced when relayed,
    and its identity is the hash of different bytes. (31 edge bits, two padding bits.) *)
Theorem C13_padding_not_preserved_refuted : forall Blake2b, exists bs h h' x y,
  is_bytes bs /\
  BlockHeader_Deserialize Blake2b (mkBB 0 bs 1) = Ret (h, mkBB (N.of_nat (length bs)) bs 1) /\
  BlockHeader_Serialize h <> bs /\
  BlockHeader_Deserialize Blake2b (mkBB 0 (BlockHeader_Serialize h) 1) = Ret (h', mkBB (N.of_nat (length bs)) (BlockHeader_Serialize h) 1) /\
  GetPreProofOfWork h = GetPreProofOfWork h' /\
  m_proofNonces (h_proofOfWork h) = m_proofNonces (h_proofOfWork h') /\
  BlockHeader_GetHash h = Blake2b x /\ BlockHeader_GetHash h' = Blake2b y /\ x <> y.
Proof.
  intros Blake2b.
  pose (pre := repeat 0 246). pose (bits := repeat 0 162 ++ [64]). pose (bs := pre ++ [31] ++ bits).
  exists bs. eexists. eexists. exists bits, (repeat 0 163).
  split; [apply all_below; vm_compute; reflexivity|]. split; [vm_compute; reflexivity|]. split; [vm_compute; discriminate|].
  split; [vm_compute; reflexivity|]. split; [vm_compute; reflexivity|]. split; [vm_compute; reflexivity|].
  split; [vm_compute; reflexivity|]. split; [vm_compute; reflexivity|]. vm_compute. discriminate.
Qed.
Print Assumptions C13_padding_not_preserved_refuted.

Definition example_header : BlockHeader :=
  mkHeader 4 1000000 1600000000 (repeat 1 32) (repeat 2 32) (repeat 3 32) (repeat 4 32) (repeat 5 32) (repeat 6 32)
    1234567 765432 99999999 1856 18446744073709551615 (PoW_Create (fun l => firstn 32 (rev l)) 32 (map (fun k => N.of_nat k * 99999 + 3) (seq 0 42))).
Example C13_case : header_fields_ok example_header /\ length (BlockHeader_Serialize example_header) = 415%nat.
Proof.
  split; [|vm_compute; reflexivity]. unfold header_fields_ok, pow_fields_ok.
  repeat match goal with |- _ /\ _ => split end;
    lazymatch goal with
    | |- Forall _ _ => apply all_below; vm_compute; reflexivity
    | |- length _ = _ => reflexivity
    | |- (_ < _)%Z => vm_compute; reflexivity
    | |- (_ <= _)%Z => vm_compute; discriminate
    | |- _ < _ => vm_compute; reflexivity
    | |- _ <= _ => vm_compute; discriminate
    end.
Qed.

(** C14. Kernels, outputs, inputs, bodies, transactions and blocks at every protocol version. *)
Theorem C14_kernel_round_trip v k : kernel_ok v k -> decodes v Kernel_Deserialize (Kernel_Serialize v k) k.
Proof. exact (dec_kernel v k). Qed.
Print Assumptions C14_kernel_round_trip.
Theorem C14_output_round_trip v o : output_ok o -> decodes v Output_Deserialize (Output_Serialize o) o.
Proof. exact (dec_output v o). Qed.
Print Assumptions C14_output_round_trip.
Theorem C14_input_round_trip features_of v i : input_ok features_of v i ->
  decodes v (Input_Deserialize features_of) (Input_Serialize v i) i.
Proof. exact (dec_input features_of v i). Qed.
Print Assumptions C14_input_round_trip.
Theorem C14_transaction_round_trip Blake2b features_of v t :
  length (t_offset t) = 32%nat -> body_ok Blake2b features_of v (t_body t) ->
  decodes v (Transaction_Deserialize Blake2b features_of) (Transaction_Serialize v t) t.
Proof. exact (dec_tx Blake2b features_of v t). Qed.
Print Assumptions C14_transaction_round_trip.
Theorem C14_block_round_trip Blake2b features_of v b :
  header_fields_ok (fb_header b) ->
  BlockHeader_GetHash (fb_header b) = Blake2b (SerializeCycle (m_edgeBits (h_proofOfWork (fb_header b))) (m_proofNonces (h_proofOfWork (fb_header b)))) ->
  body_ok Blake2b features_of v (fb_body b) ->
  decodes v (FullBlock_Deserialize Blake2b features_of) (FullBlock_Serialize v b) b.
Proof. intros H1 H2 H3. apply dec_block; [split; assumption | exact H3]. Qed.
Print Assumptions C14_block_round_trip.
Theorem C14_compact_block_round_trip Blake2b v c :
  header_fields_ok (cb_header c) ->
  BlockHeader_GetHash (cb_header c) = Blake2b (SerializeCycle (m_edgeBits (h_proofOfWork (cb_header c))) (m_proofNonces (h_proofOfWork (cb_header c)))) ->
  compact_ok v c ->
  decodes v (CompactBlock_Deserialize Blake2b) (CompactBlock_Serialize v c) c.
Proof. intros H1 H2 H3. apply dec_compact; [split; assumption | exact H3]. Qed.
Print Assumptions C14_compact_block_round_trip.
Theorem C14_output_identifier_round_trip v f c : f < 256 -> length c = 33%nat ->
  decodes v OutputIdentifier_Deserialize (OutputIdentifier_Serialize (mkOutputId f c)) (mkOutputId f c).
Proof. exact (dec_output_id v f c). Qed.
Print Assumptions C14_output_identifier_round_trip.

(** A body arriving in any order is accepted and sorted: nothing is lost or invented. *)
Theorem C14_body_is_sorted_on_arrival Blake2b features_of v ins outs kers :
  Forall (input_ok features_of v) ins -> Forall output_ok outs -> Forall (kernel_ok v) kers ->
  N.of_nat (length ins) < W64 -> N.of_nat (length outs) < W64 -> N.of_nat (length kers) < W64 ->
  exists b, decodes v (Body_Deserialize Blake2b features_of) (Body_Serialize v (mkBody ins outs kers)) b /\
    Permutation ins (b_inputs b) /\ Permutation outs (b_outputs b) /\ Permutation kers (b_kernels b) /\
    sorted_by (input_hash Blake2b) (b_inputs b) /\ sorted_by (output_hash Blake2b) (b_outputs b) /\ sorted_by (kernel_hash Blake2b) (b_kernels b).
Proof.
  intros H1 H2 H3 L1 L2 L3. eexists. split; [apply dec_body_any; assumption|]. cbn [b_inputs b_outputs b_kernels].
  repeat split; try apply sort_sorts; (eapply perm_trans; [apply sort_perm | apply sort_perm]).
Qed.
Print Assumptions C14_body_is_sorted_on_arrival.

(** No-recent-duplicate kernels with relative height 0 or above one week are rejected ... *)
Theorem C14_nrd_height_checked b k b' : good_buffer b -> is_bytes (m_bytes b) ->
  Kernel_Deserialize b = Ret (k, b') -> k_features k = 3 -> 1 <= k_lockHeight k <= 10080.
Proof.
  intros G B E. destruct (con_kernel_nrd b k b' G B E) as (_ & _ & _ & c & _ & _ & _ & X). exact X.
Qed.
Print Assumptions C14_nrd_height_checked.

(** ... but unknown feature bytes are accepted, and such a kernel is not written back as read: the
    fee disappears, so the bytes that follow would be misread by the next node. *)
Theorem C14_unknown_features_refuted :
  exists bs k, is_bytes bs /\ Kernel_Deserialize (mkBB 0 bs 2) = Ret (k, mkBB (N.of_nat (length bs)) bs 2) /\
    k_features k = 7 /\ (length (Kernel_Serialize 2 k) < length bs)%nat.
Proof.
  exists ([7] ++ repeat 0 6 ++ [9; 9] ++ repeat 1 97). eexists. split; [apply all_below; vm_compute; reflexivity|].
  split; [vm_compute; reflexivity|]. split; vm_compute; [reflexivity|]. repeat constructor.
Qed.
Print Assumptions C14_unknown_features_refuted.

(** The same kernel has several wire forms: the reserved bytes of the fee are ignored. *)
Theorem C14_kernel_bytes_not_unique_refuted :
  exists bs bs' k, bs <> bs' /\ is_bytes bs /\ is_bytes bs' /\
    Kernel_Deserialize (mkBB 0 bs 2) = Ret (k, mkBB (N.of_nat (length bs)) bs 2) /\
    Kernel_Deserialize (mkBB 0 bs' 2) = Ret (k, mkBB (N.of_nat (length bs)) bs' 2).
Proof.
  exists ([0] ++ repeat 0 7 ++ [9] ++ repeat 1 97), ([0] ++ [1; 2; 240] ++ repeat 0 4 ++ [9] ++ repeat 1 97). eexists.
  split; [discriminate|]. split; [apply all_below; vm_compute; reflexivity|]. split; [apply all_below; vm_compute; reflexivity|]. split; vm_compute; reflexivity.
Qed.
Print Assumptions C14_kernel_bytes_not_unique_refuted.

Example C14_case :
  kernel_ok 2 (mkKernel 3 (mkFee 2 700000) 1440 (repeat 8 33) (repeat 9 64)) /\
  body_ok (fun l => rev l) (fun _ => 0) 3
    (mkBody [mkInput 0 (repeat 1 33); mkInput 0 (repeat 2 33)] [mkOutput 0 (repeat 7 33) (repeat 4 675)]
            [mkKernel 0 (mkFee 0 23000000) 0 (repeat 8 33) (repeat 9 64)]).
Proof.
  split.
  - unfold kernel_ok, fee_ok. cbn. repeat split; try lia; try discriminate.
  - unfold body_ok, sorted_by. cbn [b_inputs b_outputs b_kernels].
    repeat split; repeat constructor; unfold kernel_ok, fee_ok, input_ok, output_ok; cbn; repeat split; try lia; try discriminate.
Qed.

(** C15. Fees: binary for shifts below 16 and fees below 2^40 ... *)
Theorem C15_fee_round_trip v f : m_shift f < 16 -> m_fee f < 2 ^ 40 -> decodes v Fee_Deserialize (Fee_Serialize f) f.
Proof. intros H1 H2. apply dec_fee. split; assumption. Qed.
Print Assumptions C15_fee_round_trip.
(** ... and nothing outside that range can be decoded, so larger fees do not survive. *)
Theorem C15_decoded_fees_in_range b f b' : good_buffer b -> is_bytes (m_bytes b) -> Fee_Deserialize b = Ret (f, b') ->
  m_shift f < 16 /\ m_fee f < 2 ^ 40.
Proof. intros G B E. destruct (con_fee b f b' G B E) as (_ & _ & _ & c & _ & _ & _ & X & _). exact X. Qed.
Print Assumptions C15_decoded_fees_in_range.
Theorem C15_large_fee_refuted : exists f f', m_fee f < W64 /\ m_shift f < 16 /\
  Fee_Deserialize (mkBB 0 (Fee_Serialize f) 1) = Ret (f', mkBB 8 (Fee_Serialize f) 1) /\ f <> f'.
Proof. exists (mkFee 0 1099511627776), (mkFee 0 0). repeat split; vm_compute; reflexivity || discriminate. Qed.
Print Assumptions C15_large_fee_refuted.
(** JSON: the shift ends up inside the fee. *)
Theorem C15_json_round_trip_partial f : m_shift f = 0 -> m_fee f < 2 ^ 40 -> omap Fee_FromJSON (Fee_ToJSON f) = Ret f.
Proof. exact (fee_json f). Qed.
Print Assumptions C15_json_round_trip_partial.
Theorem C15_json_shift_lost_refuted f : 0 < m_shift f < 16 -> m_fee f < 2 ^ 40 ->
  exists f', omap Fee_FromJSON (Fee_ToJSON f) = Ret f' /\ m_shift f' = 0 /\ 2 ^ 40 <= m_fee f'.
Proof. exact (fee_json_shift f). Qed.
Print Assumptions C15_json_shift_lost_refuted.
Example C15_case : omap Fee_FromJSON (Fee_ToJSON (mkFee 1 5)) = Ret (mkFee 0 1099511627781).
Proof. vm_compute. reflexivity. Qed.

(** Stored positions: the leaf index recomputed on reading is the one written. *)
Theorem C14_output_location_round_trip v H l p h :
  nth_error (leaf_positions (big_tree H)) l = Some p -> p < W64 - 1 -> h < W64 ->
  let loc := mkLoc (mkLeafIndex (N.of_nat l) p) h in
  decodes v OutputLocation_Deserialize (OutputLocation_Serialize loc) loc.
Proof. intros H1 H2 H3. exact (dec_location v l h p H H1 H2 H3). Qed.
Print Assumptions C14_output_location_round_trip.
(** A block's spent outputs are stored with a 16-bit count. *)
Theorem C14_spent_outputs_count_refuted :
  exists l, N.of_nat (length l) = 65536 /\
    omap fst (SpentOutputs_Deserialize (mkBB 0 (SpentOutputs_Serialize l) 1)) = Ret [].
Proof.
  exists (repeat (mkSpent [] (mkLoc (mkLeafIndex 0 0) 0)) (N.to_nat 65536)). split; vm_compute; reflexivity.
Qed.
Print Assumptions C14_spent_outputs_count_refuted.
