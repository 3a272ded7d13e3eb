(** Model of the messages exchanged with peers: src/P2P/Messages/*.h, the parts of
    src/P2P/Connection.cpp and src/P2P/MessageProcessor.cpp that receive and decode them, and
    src/P2P/Seed/HandShake.cpp (the messages, not the timeouts). Sockets are replaced by the stream
    of bytes that arrives; what is done with a decoded message is not modelled here. *)
From Verif Require Import Base Bytes FileModel SerialModel ConsensusModel CodecModel.
Local Open Scope N_scope.

(** include/P2P/Common.h:21-36. *)
Definition HEADER_LENGTH : N := 11.
Definition MAX_BLOCK_SIZE : N := MAX_BLOCK_WEIGHT / OUTPUT_WEIGHT * 708.
Definition MAX_BLOCK_HEADERS : N := 512.
Definition MAX_PEER_ADDRS : N := 256.
Definition MAX_LOCATORS : N := 20.

(** src/P2P/Messages/MessageTypes.h:9-40. A type is kept as the byte it is sent as. *)
Definition T_Error : N := 0.
Definition T_Hand : N := 1.
Definition T_Shake : N := 2.
Definition T_Ping : N := 3.
Definition T_Pong : N := 4.
Definition T_GetPeerAddrs : N := 5.
Definition T_PeerAddrs : N := 6.
Definition T_GetHeaders : N := 7.
Definition T_Header : N := 8.
Definition T_Headers : N := 9.
Definition T_GetBlock : N := 10.
Definition T_Block : N := 11.
Definition T_GetCompactBlock : N := 12.
Definition T_CompactBlock : N := 13.
Definition T_StemTransaction : N := 14.
Definition T_Transaction : N := 15.
Definition T_TxHashSetRequest : N := 16.
Definition T_TxHashSetArchive : N := 17.
Definition T_BanReason : N := 18.
Definition T_GetTransaction : N := 19.
Definition T_TransactionKernel : N := 20.
Definition T_GetOutputBitmapSegment : N := 21.
Definition T_OutputBitmapSegment : N := 22.
Definition T_GetOutputSegment : N := 23.
Definition T_OutputSegment : N := 24.
Definition T_GetRangeProofSegment : N := 25.
Definition T_RangeProofSegment : N := 26.
Definition T_GetKernelSegment : N := 27.
Definition T_KernelSegment : N := 28.

(** MessageTypes.h:42-101: GetMaximumSize. *)
Definition GetMaximumSize (t : N) : N :=
  match t with
  | 0 => 0
  | 1 => 128
  | 2 => 88
  | 3 => 16
  | 4 => 16
  | 5 => 4
  | 6 => 4 + (1 + 16 + 2) * MAX_PEER_ADDRS
  | 7 => 1 + 32 * MAX_LOCATORS
  | 8 => 365
  | 9 => 2 + 365 * MAX_BLOCK_HEADERS
  | 10 => 32
  | 11 => MAX_BLOCK_SIZE
  | 12 => 32
  | 13 => MAX_BLOCK_SIZE / 10
  | 14 => MAX_BLOCK_SIZE
  | 15 => MAX_BLOCK_SIZE
  | 16 => 40
  | 17 => 64
  | 18 => 64
  | 19 => 32
  | 20 => 32
  | 21 | 23 | 25 | 27 => 41
  | 22 | 24 | 26 | 28 => 2 * MAX_BLOCK_SIZE
  | _ => 0
  end.

(** src/P2P/Messages/MessageHeader.h:50-78. The two magic bytes are those of the network
    (Global::GetMagicBytes). A type byte that names no message is kept. *)
Record MessageHeader := mkMessageHeader { mh_type : N; mh_length : N }.
Definition MessageHeader_Deserialize (magic1 magic2 : N) : reader MessageHeader :=
  let! magicByte1 := ReadU8 in
  let! magicByte2 := ReadU8 in
  if negb (magicByte1 =? magic1) || negb (magicByte2 =? magic2) then rthrow else
  let! messageType := ReadU8 in
  let! messageLength := ReadU64 in
  if mul64 (GetMaximumSize messageType) 4 <? messageLength then rthrow
  else rret (mkMessageHeader messageType messageLength).

(** include/Net/IPAddress.h:118-150: the address as the bytes of its family. *)
Inductive IPAddress := V4 (b : bytes) | V6 (b : bytes).
Definition IPAddress_Serialize (a : IPAddress) : bytes :=
  match a with V4 b => Append 1 0 ++ b | V6 b => Append 1 1 ++ b end.
Definition IPAddress_Deserialize : reader IPAddress :=
  let! ipAddressFamily := ReadU8 in
  if ipAddressFamily =? 0 then let! b := ReadArray 4 in rret (V4 b)
  else if ipAddressFamily =? 1 then let! b := ReadArray 16 in rret (V6 b)
  else rthrow.
(** include/Net/SocketAddress.h:109-125. *)
Record SocketAddress := mkSocketAddress { m_ipAddress : IPAddress; m_port : N }.
Definition SocketAddress_Serialize (s : SocketAddress) : bytes := IPAddress_Serialize (m_ipAddress s) ++ Append 2 (m_port s).
Definition SocketAddress_Deserialize : reader SocketAddress :=
  let! ipAddress := IPAddress_Deserialize in
  let! port := ReadU16 in
  rret (mkSocketAddress ipAddress port).

(** include/PMMR/Common/SegmentId.h:43-54. *)
Record SegmentIdentifier := mkSegmentId { si_height : N; si_index : N }.
Definition SegmentId_Serialize (i : SegmentIdentifier) : bytes := Append 1 (si_height i) ++ Append 8 (si_index i).
Definition SegmentId_Deserialize : reader SegmentIdentifier :=
  let! height := ReadU8 in
  let! index := ReadU64 in
  rret (mkSegmentId height index).
(** include/PMMR/Common/SegmentProof.h:43-60. *)
Definition SegmentProof_Serialize (hashes : list bytes) : bytes := Append 8 (nlen hashes) ++ flat_map AppendBigInteger hashes.
Definition SegmentProof_Deserialize : reader (list bytes) :=
  let! size := ReadU64 in
  read_many (ReadBigInteger 32) (N.to_nat size).
(** include/PMMR/Common/Segment.h:73-125. The memory reserved before the elements are read is in
    [Segment_reserves] below; here it is taken to be granted. *)
Record Segment (T : Type) := mkSegment {
  sg_id : SegmentIdentifier; sg_hash_pos : list N; sg_hashes : list bytes; sg_leaf_pos : list N; sg_leaves : list T; sg_proof : list bytes }.
Arguments mkSegment {T}. Arguments sg_id {T}. Arguments sg_hash_pos {T}. Arguments sg_hashes {T}.
Arguments sg_leaf_pos {T}. Arguments sg_leaves {T}. Arguments sg_proof {T}.
Definition Segment_Serialize {T} (leaf : T -> bytes) (s : Segment T) : bytes :=
  SegmentId_Serialize (sg_id s) ++
  Append 8 (nlen (sg_hash_pos s)) ++ flat_map (Append 8) (sg_hash_pos s) ++ flat_map AppendBigInteger (sg_hashes s) ++
  Append 8 (nlen (sg_leaf_pos s)) ++ flat_map (Append 8) (sg_leaf_pos s) ++ flat_map leaf (sg_leaves s) ++
  SegmentProof_Serialize (sg_proof s).
Definition Segment_Deserialize {T} (leaf : reader T) : reader (Segment T) :=
  let! id := SegmentId_Deserialize in
  let! numHashes := ReadU64 in
  let! hashPos := read_many ReadU64 (N.to_nat numHashes) in
  let! hashes := read_many (ReadBigInteger 32) (N.to_nat numHashes) in
  let! numLeaves := ReadU64 in
  let! leafPos := read_many ReadU64 (N.to_nat numLeaves) in
  let! leaves := read_many leaf (N.to_nat numLeaves) in
  let! proof := SegmentProof_Deserialize in
  rret (mkSegment id hashPos hashes leafPos leaves proof).
(** Segment.h:96-97: [std::vector<uint64_t> hashPos(numHashes)], the number of bytes asked for and
    written with zeros before the first position is read. *)
Definition Segment_reserves : reader N :=
  let! _ := SegmentId_Deserialize in
  let! numHashes := ReadU64 in
  rret (8 * numHashes).

(** include/PMMR/Common/BitmapSegment.h:50-122: one block, raw or as positions (mode 1 or 2). *)
Inductive BitmapSegmentBlock := RawBlock (chunkCount : N) (b : bytes) | PositionsBlock (chunkCount mode : N) (positions : list N).
Definition BitmapBlock_Serialize (b : BitmapSegmentBlock) : bytes :=
  match b with
  | RawBlock chunkCount bits => Append 1 chunkCount ++ Append 1 0 ++ AppendByteVector bits LenNone
  | PositionsBlock chunkCount mode positions =>
      Append 1 chunkCount ++ Append 1 mode ++ Append 2 (nlen positions mod W16) ++ flat_map (Append 2) positions
  end.
Definition BitmapBlock_Deserialize : reader BitmapSegmentBlock :=
  let! chunkCount := ReadU8 in
  let! mode := ReadU8 in
  if 2 <? mode then rthrow else
  if mode =? 0 then let! b := read_many ReadU8 (N.to_nat (chunkCount * 128)) in rret (RawBlock chunkCount b)
  else
    let! count := ReadU16 in
    let! positions := read_many ReadU16 (N.to_nat count) in
    rret (PositionsBlock chunkCount mode positions).
(** BitmapSegment.h:155-182. *)
Record BitmapSegment := mkBitmapSegment { bs_id : SegmentIdentifier; bs_blocks : list BitmapSegmentBlock; bs_proof : list bytes }.
Definition BitmapSegment_Serialize (s : BitmapSegment) : bytes :=
  SegmentId_Serialize (bs_id s) ++ Append 2 (nlen (bs_blocks s) mod W16) ++ flat_map BitmapBlock_Serialize (bs_blocks s) ++
  SegmentProof_Serialize (bs_proof s).
Definition BitmapSegment_Deserialize : reader BitmapSegment :=
  let! id := SegmentId_Deserialize in
  let! numBlocks := ReadU16 in
  let! blocks := read_many BitmapBlock_Deserialize (N.to_nat numBlocks) in
  let! proof := SegmentProof_Deserialize in
  rret (mkBitmapSegment id blocks proof).

(** src/P2P/Messages/HandMessage.h:92-115 and ShakeMessage.h:79-93. *)
Record Hand := mkHand {
  hd_version : N; hd_capabilities : N; hd_nonce : N; hd_hash : bytes; hd_totalDifficulty : N;
  hd_sender : SocketAddress; hd_receiver : SocketAddress; hd_userAgent : bytes }.
Record Shake := mkShake { sh_version : N; sh_capabilities : N; sh_hash : bytes; sh_totalDifficulty : N; sh_userAgent : bytes }.

(** The messages, one constructor for each class of src/P2P/Messages. [MGetSegment t] stands for the
    four instances of SegmentRequestMessage. *)
Inductive message :=
| MError (errorCode : N) (text : bytes)
| MHand (h : Hand)
| MShake (s : Shake)
| MPing (totalDifficulty height : N)
| MPong (totalDifficulty height : N)
| MGetPeerAddrs (capabilities : N)
| MPeerAddrs (addresses : list SocketAddress)
| MGetHeaders (hashes : list bytes)
| MHeader (h : BlockHeader)
| MHeaders (hs : list BlockHeader)
| MGetBlock (hash : bytes)
| MBlock (b : FullBlock)
| MGetCompactBlock (hash : bytes)
| MCompactBlock (c : CompactBlock)
| MStemTransaction (t : Transaction)
| MTransaction (t : Transaction)
| MTxHashSetRequest (hash : bytes) (height : N)
| MTxHashSetArchive (hash : bytes) (height zippedSize : N)
| MBanReason (reason : N)
| MGetTransaction (hash : bytes)
| MTransactionKernel (hash : bytes)
| MGetSegment (t : N) (hash : bytes) (id : SegmentIdentifier)
| MOutputBitmapSegment (hash : bytes) (s : BitmapSegment) (root : bytes)
| MOutputSegment (hash : bytes) (s : Segment OutputIdentifier) (root : bytes)
| MRangeProofSegment (hash : bytes) (s : Segment bytes)
| MKernelSegment (hash : bytes) (s : Segment TransactionKernel).

(** GetMessageType of each class. *)
Definition GetMessageType (m : message) : N :=
  match m with
  | MError _ _ => T_Error | MHand _ => T_Hand | MShake _ => T_Shake | MPing _ _ => T_Ping | MPong _ _ => T_Pong
  | MGetPeerAddrs _ => T_GetPeerAddrs | MPeerAddrs _ => T_PeerAddrs | MGetHeaders _ => T_GetHeaders
  | MHeader _ => T_Header | MHeaders _ => T_Headers | MGetBlock _ => T_GetBlock | MBlock _ => T_Block
  | MGetCompactBlock _ => T_GetCompactBlock | MCompactBlock _ => T_CompactBlock
  | MStemTransaction _ => T_StemTransaction | MTransaction _ => T_Transaction
  | MTxHashSetRequest _ _ => T_TxHashSetRequest | MTxHashSetArchive _ _ _ => T_TxHashSetArchive
  | MBanReason _ => T_BanReason | MGetTransaction _ => T_GetTransaction | MTransactionKernel _ => T_TransactionKernel
  | MGetSegment t _ _ => t
  | MOutputBitmapSegment _ _ _ => T_OutputBitmapSegment | MOutputSegment _ _ _ => T_OutputSegment
  | MRangeProofSegment _ _ => T_RangeProofSegment | MKernelSegment _ _ => T_KernelSegment
  end.

(** SerializeBody of each class: ErrorMessage.h:54-58, HandMessage.h:80-90, ShakeMessage.h:70-77,
    PingMessage.h:54-58, PongMessage.h:54-58, GetPeerAddressesMessage.h:52-55 (Capabilities.h:47-50),
    PeerAddressesMessage.h:61-68, GetHeadersMessage.h:60-67, HeaderMessage.h:53-56,
    HeadersMessage.h:60-67, GetBlockMessage.h:58-61, BlockMessage.h:53-56, GetCompactBlockMessage.h:58-61,
    CompactBlockMessage.h:58-61, StemTransactionMessage.h:54-57, TransactionMessage.h:54-57,
    TxHashSetRequestMessage.h:54-58, TxHashSetArchiveMessage.h:57-62, BanReasonMessage.h:52-55,
    GetTransactionMessage.h:58-61, TransactionKernelMessage.h:58-61, SegmentRequestMessage.h:40-44,
    SegmentResponseMessage.h:49-53, 98-103, 147-152. *)
Definition SerializeBody (v : N) (m : message) : bytes :=
  match m with
  | MError errorCode text => Append 4 errorCode ++ AppendVarStr text
  | MHand h => Append 4 (hd_version h) ++ Append 4 (hd_capabilities h) ++ Append 8 (hd_nonce h) ++ Append 8 (hd_totalDifficulty h) ++
      SocketAddress_Serialize (hd_sender h) ++ SocketAddress_Serialize (hd_receiver h) ++ AppendVarStr (hd_userAgent h) ++
      AppendBigInteger (hd_hash h)
  | MShake s => Append 4 (sh_version s) ++ Append 4 (sh_capabilities s) ++ Append 8 (sh_totalDifficulty s) ++
      AppendVarStr (sh_userAgent s) ++ AppendBigInteger (sh_hash s)
  | MPing d h => Append 8 d ++ Append 8 h
  | MPong d h => Append 8 d ++ Append 8 h
  | MGetPeerAddrs c => Append 4 c
  | MPeerAddrs l => Append 4 (nlen l mod W32) ++ flat_map SocketAddress_Serialize l
  | MGetHeaders l => Append 1 (nlen l mod W8) ++ flat_map AppendBigInteger l
  | MHeader h => BlockHeader_Serialize h
  | MHeaders l => Append 2 (nlen l mod W16) ++ flat_map BlockHeader_Serialize l
  | MGetBlock hash => AppendBigInteger hash
  | MBlock b => FullBlock_Serialize v b
  | MGetCompactBlock hash => AppendBigInteger hash
  | MCompactBlock c => CompactBlock_Serialize v c
  | MStemTransaction t => Transaction_Serialize v t
  | MTransaction t => Transaction_Serialize v t
  | MTxHashSetRequest hash height => AppendBigInteger hash ++ Append 8 height
  | MTxHashSetArchive hash height size => AppendBigInteger hash ++ Append 8 height ++ Append 8 size
  | MBanReason r => Append 4 r
  | MGetTransaction hash => AppendBigInteger hash
  | MTransactionKernel hash => AppendBigInteger hash
  | MGetSegment _ hash id => AppendBigInteger hash ++ SegmentId_Serialize id
  | MOutputBitmapSegment hash s root => AppendBigInteger hash ++ BitmapSegment_Serialize s ++ AppendBigInteger root
  | MOutputSegment hash s root => AppendBigInteger hash ++ Segment_Serialize OutputIdentifier_Serialize s ++ AppendBigInteger root
  | MRangeProofSegment hash s => AppendBigInteger hash ++ Segment_Serialize RangeProof_Serialize s
  | MKernelSegment hash s => AppendBigInteger hash ++ Segment_Serialize (Kernel_Serialize v) s
  end.

(** src/P2P/Messages/Message.h:20-32: what is sent. *)
Definition Message_Serialize (magic1 magic2 v : N) (m : message) : bytes :=
  AppendByteVector [magic1; magic2] LenNone ++ Append 1 (GetMessageType m) ++
  Append 8 (nlen (SerializeBody v m)) ++ AppendByteVector (SerializeBody v m) LenNone.

(** HandMessage.h:65-78, ShakeMessage.h:58-67. *)
Definition Hand_Deserialize : reader Hand :=
  let! version := ReadU32 in
  let! capabilities := ReadU32 in
  let! nonce := ReadU64 in
  let! totalDifficulty := ReadU64 in
  let! senderAddress := SocketAddress_Deserialize in
  let! receiverAddress := SocketAddress_Deserialize in
  let! userAgent := ReadVarStr in
  let! hash := ReadBigInteger 32 in
  rret (mkHand version capabilities nonce hash totalDifficulty senderAddress receiverAddress userAgent).
Definition Shake_Deserialize : reader Shake :=
  let! version := ReadU32 in
  let! capabilities := ReadU32 in
  let! totalDifficulty := ReadU64 in
  let! userAgent := ReadVarStr in
  let! hash := ReadBigInteger 32 in
  rret (mkShake version capabilities hash totalDifficulty userAgent).

Section Receiving.
Variable Blake2b : bytes -> bytes.
(** The features the chain knows for a commitment (CodecModel.v). *)
Variable GetOutputType : bytes -> N.
Variables magic1 magic2 : N.

(** src/P2P/MessageProcessor.cpp:105-434: how the body of each type is decoded; [None] when the
    message is dropped without being decoded. [syncing]: SyncStatus is not NOT_SYNCING.
    An ErrorMessage keeps a reference to the string its Deserialize returns from (ErrorMessage.h:41-49,
    64), so logging it reads a destroyed string: [Fault]. *)
Definition decode (syncing : bool) (t : N) : reader (option message) :=
  let some {A} (f : A -> message) (r : reader A) : reader (option message) := let! x := r in rret (Some (f x)) in
  match t with
  | 0 => let! _ := ReadU32 in let! _ := ReadVarStr in fun _ => Fault
  | 3 => let! d := ReadU64 in let! h := ReadU64 in rret (Some (MPing d h))
  | 4 => let! d := ReadU64 in let! h := ReadU64 in rret (Some (MPong d h))
  | 5 => some MGetPeerAddrs ReadU32
  | 6 => let! n := ReadU32 in some MPeerAddrs (read_many SocketAddress_Deserialize (N.to_nat n))
  | 7 => let! n := ReadU8 in some MGetHeaders (read_many (ReadBigInteger 32) (N.to_nat n))
  | 8 => some MHeader (BlockHeader_Deserialize Blake2b)
  | 9 => let! n := ReadU16 in some MHeaders (read_many (BlockHeader_Deserialize Blake2b) (N.to_nat n))
  | 10 => some MGetBlock (ReadBigInteger 32)
  | 11 => some MBlock (FullBlock_Deserialize Blake2b GetOutputType)
  | 12 => some MGetCompactBlock (ReadBigInteger 32)
  | 13 => some MCompactBlock (CompactBlock_Deserialize Blake2b)
  | 14 => if syncing then rret None else some MStemTransaction (Transaction_Deserialize Blake2b GetOutputType)
  | 15 => if syncing then rret None else some MTransaction (Transaction_Deserialize Blake2b GetOutputType)
  | 16 => let! hash := ReadBigInteger 32 in let! height := ReadU64 in rret (Some (MTxHashSetRequest hash height))
  | 17 => let! hash := ReadBigInteger 32 in let! height := ReadU64 in let! size := ReadU64 in rret (Some (MTxHashSetArchive hash height size))
  | 18 => some MBanReason ReadU32
  | 19 => some MGetTransaction (ReadBigInteger 32)
  | 20 => if syncing then rret None else some MTransactionKernel (ReadBigInteger 32)
  | 21 | 23 | 25 | 27 => let! hash := ReadBigInteger 32 in let! id := SegmentId_Deserialize in rret (Some (MGetSegment t hash id))
  | 22 => let! hash := ReadBigInteger 32 in let! s := BitmapSegment_Deserialize in let! root := ReadBigInteger 32 in
          rret (Some (MOutputBitmapSegment hash s root))
  | 24 => let! hash := ReadBigInteger 32 in let! s := Segment_Deserialize OutputIdentifier_Deserialize in let! root := ReadBigInteger 32 in
          rret (Some (MOutputSegment hash s root))
  | 26 => let! hash := ReadBigInteger 32 in let! s := Segment_Deserialize RangeProof_Deserialize in rret (Some (MRangeProofSegment hash s))
  | 28 => let! hash := ReadBigInteger 32 in let! s := Segment_Deserialize Kernel_Deserialize in rret (Some (MKernelSegment hash s))
  | _ => rret None
  end.

(** How the connection stands after what has arrived so far. *)
Inductive status :=
| Waiting                       (* for the rest of a header or of a body *)
| Disconnected
| Deadlocked                    (* the thread that serves all connections waits for a mutex that it holds itself *)
| HandedOver (rest : bytes)     (* to the thread that downloads a state archive (Pipeline/TxHashSetPipe.cpp:36-64) *)
| Crashed.                      (* undefined behaviour *)

(** src/P2P/Connection.cpp:144-216: HandleReceivedHeader reads 11 bytes and decodes the header,
    HandleReceivedBody reads as many bytes as it says and hands them on, then the next header is read.
    HandleReceivedBody holds [m_mutex] (178), a std::mutex (Connection.h:115), while it does so; for a body that
    cannot be decoded (every exception of the decoders is a DeserializationException) MessageProcessor.cpp:94-102
    calls Disconnect, which locks [m_mutex] (Connection.cpp:23). [asio::async_read]
    completes when all the bytes it was asked for have arrived. Banning by a handler, time limits and
    socket errors are not modelled. Every round consumes at least 11 bytes, so [fuel] of one more than
    the length of the stream is enough. *)
Fixpoint receive_from (fuel : nat) (v : N) (syncing : bool) (stream : bytes) : list message * status :=
  match fuel with
  | O => ([], Waiting)
  | S fuel =>
      if nlen stream <? HEADER_LENGTH then ([], Waiting) else
      match MessageHeader_Deserialize magic1 magic2 (mkBB 0 (firstn 11 stream) 1) with
      | Throw => ([], Disconnected)
      | Fault => ([], Crashed)
      | Ret (header, _) =>
          let rest := skipn 11 stream in
          if nlen rest <? mh_length header then ([], Waiting) else
          let payload := firstn (N.to_nat (mh_length header)) rest in
          let rest := skipn (N.to_nat (mh_length header)) rest in
          match decode syncing (mh_type header) (mkBB 0 payload v) with
          | Throw => ([], Deadlocked)
          | Fault => ([], Crashed)
          | Ret (None, _) => receive_from fuel v syncing rest
          | Ret (Some (MTxHashSetArchive hash height size), _) => ([MTxHashSetArchive hash height size], HandedOver rest)
          | Ret (Some m, _) => let r := receive_from fuel v syncing rest in (m :: fst r, snd r)
          end
      end
  end.
Definition receive (v : N) (syncing : bool) (stream : bytes) : list message * status :=
  receive_from (S (length stream)) v syncing stream.

(** src/P2P/Seed/HandShake.cpp:123-140 RetrieveMessage and 55-87: the first message of an inbound
    connection. [Throw] is a ProtocolException or a DeserializationException: no connection. The check
    that the peer is not connected already is left out. P2P::PROTOCOL_VERSION is [local]. Returns the
    message and the protocol version that will be used. *)
Definition InboundHandshake (self_nonce local : N) (stream : bytes) : outcome (Hand * N) :=
  if nlen stream <? HEADER_LENGTH then Throw else
  let* h := MessageHeader_Deserialize magic1 magic2 (mkBB 0 (firstn 11 stream) 1) in
  let header := fst h in
  let rest := skipn 11 stream in
  if nlen rest <? mh_length header then Throw else
  if negb (mh_type header =? T_Hand) then Throw else
  let* r := Hand_Deserialize (mkBB 0 (firstn (N.to_nat (mh_length header)) rest) 1) in
  if hd_nonce (fst r) =? self_nonce then Throw else
  Ret (fst r, N.min local (hd_version (fst r))).
(** HandShake.cpp:30-53: the answer to an outbound connection. *)
Definition OutboundHandshake (local : N) (stream : bytes) : outcome (Shake * N) :=
  if nlen stream <? HEADER_LENGTH then Throw else
  let* h := MessageHeader_Deserialize magic1 magic2 (mkBB 0 (firstn 11 stream) 1) in
  let header := fst h in
  let rest := skipn 11 stream in
  if nlen rest <? mh_length header then Throw else
  if negb (mh_type header =? T_Shake) then Throw else
  let* r := Shake_Deserialize (mkBB 0 (firstn (N.to_nat (mh_length header)) rest) 1) in
  Ret (fst r, N.min local (sh_version (fst r))).
End Receiving.
