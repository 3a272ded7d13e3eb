(** Specification vocabulary for the messages between peers (C53): which values the fields of a
    message may have, and how long its body may be. *)
From Verif Require Import Base Bytes SerialModel CodecModel CodecSpec MessageModel.
Local Open Scope N_scope.

Definition hash_ok (h : bytes) : Prop := length h = 32%nat.
Definition ip_ok (a : IPAddress) : Prop := match a with V4 b => length b = 4%nat | V6 b => length b = 16%nat end.
Definition address_ok (s : SocketAddress) : Prop := ip_ok (m_ipAddress s) /\ m_port s < W16.
Definition segment_id_ok (i : SegmentIdentifier) : Prop := si_height i < W8 /\ si_index i < W64.
Definition segment_ok {T} (leaf_ok : T -> Prop) (s : Segment T) : Prop :=
  segment_id_ok (sg_id s) /\ length (sg_hash_pos s) = length (sg_hashes s) /\ length (sg_leaf_pos s) = length (sg_leaves s) /\
  Forall (fun p => p < W64) (sg_hash_pos s) /\ Forall hash_ok (sg_hashes s) /\
  Forall (fun p => p < W64) (sg_leaf_pos s) /\ Forall leaf_ok (sg_leaves s) /\ Forall hash_ok (sg_proof s).
Definition bitmap_block_ok (b : BitmapSegmentBlock) : Prop :=
  match b with
  | RawBlock chunks bits => chunks < W8 /\ length bits = N.to_nat (chunks * 128) /\ Forall (fun x => x < 256) bits
  | PositionsBlock chunks mode positions => chunks < W8 /\ 1 <= mode <= 2 /\ N.of_nat (length positions) < W16 /\ Forall (fun p => p < W16) positions
  end.
Definition bitmap_segment_ok (s : BitmapSegment) : Prop :=
  segment_id_ok (bs_id s) /\ N.of_nat (length (bs_blocks s)) < W16 /\ Forall bitmap_block_ok (bs_blocks s) /\ Forall hash_ok (bs_proof s).

(** A header as a node has it: its hash is the hash of its proof of work. *)
Definition sound_header (Blake2b : bytes -> bytes) (h : BlockHeader) : Prop :=
  header_fields_ok h /\ BlockHeader_GetHash h = Blake2b (SerializeCycle (m_edgeBits (h_proofOfWork h)) (m_proofNonces (h_proofOfWork h))).

Definition hand_ok (h : Hand) : Prop :=
  hd_version h < W32 /\ hd_capabilities h < W32 /\ hd_nonce h < W64 /\ hash_ok (hd_hash h) /\ hd_totalDifficulty h < W64 /\
  address_ok (hd_sender h) /\ address_ok (hd_receiver h).
Definition shake_ok (s : Shake) : Prop :=
  sh_version s < W32 /\ sh_capabilities s < W32 /\ hash_ok (sh_hash s) /\ sh_totalDifficulty s < W64.

(** Every field has a value of its type. *)
Definition message_ok (Blake2b : bytes -> bytes) (features_of : bytes -> N) (v : N) (m : message) : Prop :=
  match m with
  | MError c _ => c < W32
  | MHand h => hand_ok h
  | MShake s => shake_ok s
  | MPing d h | MPong d h => d < W64 /\ h < W64
  | MGetPeerAddrs c => c < W32
  | MPeerAddrs l => Forall address_ok l
  | MGetHeaders l => Forall hash_ok l
  | MHeader h => sound_header Blake2b h
  | MHeaders l => Forall (sound_header Blake2b) l
  | MGetBlock h | MGetCompactBlock h | MGetTransaction h | MTransactionKernel h => hash_ok h
  | MBlock b => sound_header Blake2b (fb_header b) /\ body_ok Blake2b features_of v (fb_body b)
  | MCompactBlock c => sound_header Blake2b (cb_header c) /\ compact_ok v c
  | MStemTransaction t | MTransaction t => length (t_offset t) = 32%nat /\ body_ok Blake2b features_of v (t_body t)
  | MTxHashSetRequest h n => hash_ok h /\ n < W64
  | MTxHashSetArchive h n z => hash_ok h /\ n < W64 /\ z < W64
  | MBanReason r => r < W32
  | MGetSegment t h i => (t = 21 \/ t = 23 \/ t = 25 \/ t = 27) /\ hash_ok h /\ segment_id_ok i
  | MOutputBitmapSegment h s r => hash_ok h /\ bitmap_segment_ok s /\ hash_ok r
  | MOutputSegment h s r => hash_ok h /\ segment_ok (fun o => oi_features o < 256 /\ length (oi_commitment o) = 33%nat) s /\ hash_ok r
  | MRangeProofSegment h s => hash_ok h /\ segment_ok (fun p => (length p <= 675)%nat) s
  | MKernelSegment h s => hash_ok h /\ segment_ok (kernel_ok v) s
  end.

(** The longest body a receiver accepts for a message of type [t] (four times what the protocol
    allows), written out. *)
Definition body_limit (t : N) : N :=
  match t with
  | 1 => 512 | 2 => 352 | 3 | 4 => 64 | 5 => 16 | 6 => 19472 | 7 => 2564 | 8 => 1460 | 9 => 747528
  | 10 | 12 | 19 | 20 => 128 | 11 | 14 | 15 => 5392128 | 13 => 539212 | 16 => 160 | 17 | 18 => 256
  | 21 | 23 | 25 | 27 => 164 | 22 | 24 | 26 | 28 => 10784256
  | _ => 0
  end.
Definition fits (v : N) (m : message) : Prop := N.of_nat (length (SerializeBody v m)) <= body_limit (GetMessageType m).

(** Messages an established connection hands to the node; the others are dropped. *)
Definition wanted (syncing : bool) (m : message) : bool :=
  match m with
  | MError _ _ | MHand _ | MShake _ => false
  | MStemTransaction _ | MTransaction _ | MTransactionKernel _ => negb syncing
  | _ => true
  end.
(** Not an error message, and not the announcement of a state archive (after which the stream
    contains the archive itself). *)
Definition ordinary (m : message) : Prop :=
  match m with MError _ _ | MTxHashSetArchive _ _ _ => False | _ => True end.

(** Weight of a body by the current rules (inputs 1, outputs 21, kernels 3). *)
Definition weight (b : TransactionBody) : N :=
  N.of_nat (length (b_inputs b)) + 21 * N.of_nat (length (b_outputs b)) + 3 * N.of_nat (length (b_kernels b)).
(** What a node that follows the protocol sends: at most 256 addresses, 20 locators, 512 headers,
    bodies of at most the weight of a block, compact blocks with at most 300 outputs and 1000 kernels in
    full, segments of at most two block sizes. *)
Definition protocol_size (v : N) (m : message) : Prop :=
  match m with
  | MError _ _ => False
  | MHand h => (length (hd_userAgent h) <= 256)%nat
  | MShake s => (length (sh_userAgent s) <= 256)%nat
  | MPeerAddrs l => (length l <= 256)%nat
  | MGetHeaders l => (length l <= 20)%nat
  | MHeaders l => (length l <= 512)%nat
  | MBlock b => weight (fb_body b) <= 40000
  | MStemTransaction t | MTransaction t => weight (t_body t) <= 40000
  | MCompactBlock c => N.of_nat (length (cb_outputs c)) <= 300 /\ N.of_nat (length (cb_kernels c)) <= 1000 /\
      3 * N.of_nat (length (cb_shortIds c)) <= 40000
  | MOutputBitmapSegment _ _ _ | MOutputSegment _ _ _ | MRangeProofSegment _ _ | MKernelSegment _ _ =>
      N.of_nat (length (SerializeBody v m)) <= 2696064
  | _ => True
  end.
