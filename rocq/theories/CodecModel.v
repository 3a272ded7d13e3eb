(** Model of the wire/disk formats of headers, transactions and blocks. *)
From Verif Require Import Base Bytes MMRIndexModel FileModel BitmapModel SerialModel.
Local Open Scope N_scope.

(** include/Crypto/Models/BigInteger.h:190-209: lexicographic comparison of equal-size values. *)
Fixpoint bytes_ltb (a b : bytes) : bool :=
  match a, b with
  | x :: a', y :: b' => if y =? x then bytes_ltb a' b' else x <? y
  | _, _ => false
  end.

(** [std::sort] with a comparator [f a < f b]. The order of elements with equal keys is
    unspecified in C++; this is an insertion sort, stable. *)
Section Sort.
Context {A : Type} (key : A -> bytes).
Fixpoint insert_by (x : A) (l : list A) : list A :=
  match l with
  | [] => [x]
  | y :: l' => if bytes_ltb (key y) (key x) then y :: insert_by x l' else x :: l
  end.
Definition sort_by (l : list A) : list A := fold_right insert_by [] l.
End Sort.

(** * include/Core/Models/Fee.h *)
Record Fee := mkFee { m_shift : N; m_fee : N }.
(** Fee.h:40-46. *)
Definition Fee_Serialize (f : Fee) : bytes :=
  Append 2 0 ++ Append 1 (m_shift f) ++ Append 1 (N.shiftr (m_fee f) 32 mod W8) ++ Append 4 (N.land (m_fee f) 4294967295).
(** Fee.h:48-55. *)
Definition Fee_Deserialize : reader Fee :=
  let! _ := ReadU16 in
  let! s := ReadU8 in
  let! hi := ReadU8 in
  let! lo := ReadU32 in
  rret (mkFee (N.land s 15) (add64 (N.shiftl hi 32 mod W64) lo)).
(** Fee.h:57-66: JSON holds one 64-bit number; reading it back keeps the number as the fee. *)
Definition Fee_ToJSON (f : Fee) : outcome N := omap fst (ReadU64 (mkBB 0 (Fee_Serialize f) 1)).
Definition Fee_FromJSON (json : N) : Fee := mkFee 0 json.

(** * src/Core/Models/ProofOfWork.cpp *)
Definition PROOFSIZE : N := 42.
(** include/Core/Models/ProofOfWork.h:55-57. *)
Record ProofOfWork := mkPoW { m_edgeBits : N; m_proofNonces : list N; pow_hash : bytes }.
(** [bits[p / 8] |= 1 << (p % 8)]; an index past the end (more than 42 nonces) is undefined
    behaviour in the code and ignored here. *)
Fixpoint update_nth {A} (k : nat) (f : A -> A) (l : list A) : list A :=
  match l, k with
  | [], _ => []
  | x :: l', O => f x :: l'
  | x :: l', S k' => x :: update_nth k' f l'
  end.
Definition set_bit (bits : bytes) (p : N) : bytes :=
  update_nth (N.to_nat (p / 8)) (fun b => N.lor b (N.shiftl 1 (p mod 8) mod W8)) bits.
(** ProofOfWork.cpp:28-47. *)
Definition cycle_bytes_len (edgeBits : N) : N := (edgeBits * PROOFSIZE + 7) / 8.
Definition pack_nonce (edgeBits : N) (n nonce : N) (bits : bytes) : bytes :=
  fold_left (fun bits bit => if negb (N.land nonce (N.shiftl 1 bit mod W64) =? 0) then set_bit bits (n * edgeBits + bit) else bits)
            (N_range 0 edgeBits) bits.
Fixpoint pack_nonces (edgeBits : N) (n : N) (nonces : list N) (bits : bytes) : bytes :=
  match nonces with
  | [] => bits
  | nonce :: rest => pack_nonces edgeBits (n + 1) rest (pack_nonce edgeBits n nonce bits)
  end.
Definition SerializeCycle (edgeBits : N) (nonces : list N) : bytes :=
  pack_nonces edgeBits 0 nonces (repeat 0 (N.to_nat (cycle_bytes_len edgeBits))).
(** ProofOfWork.cpp:22-26. *)
Definition PoW_Serialize (p : ProofOfWork) : bytes :=
  Append 1 (m_edgeBits p) ++ SerializeCycle (m_edgeBits p) (m_proofNonces p).
(** ProofOfWork.cpp:62-111. *)
Definition unpack_nonce (bits : bytes) (edgeBits n : N) : N :=
  fold_left (fun proofNonce bit =>
    let positionTemp := n * edgeBits + bit in
    if negb (N.land (nth (N.to_nat (positionTemp / 8)) bits 0) (N.shiftl 1 ((positionTemp mod W8) mod 8)) =? 0)
    then N.lor proofNonce (N.shiftl 1 bit mod W64) else proofNonce) (N_range 0 edgeBits) 0.
Definition DeserializeProofNonces (bits : bytes) (edgeBits : N) : outcome (list N) :=
  if (edgeBits =? 0) || (63 <? edgeBits) then Throw
  else Ret (map (unpack_nonce bits edgeBits) (N_range 0 PROOFSIZE)).

(** include/Core/Models/BlockHeader.h:117-131. *)
Record BlockHeader := mkHeader {
  h_version : N; h_height : N; h_timestamp : Z;
  h_previousBlockHash : bytes; h_previousRoot : bytes; h_outputRoot : bytes; h_rangeProofRoot : bytes; h_kernelRoot : bytes;
  h_totalKernelOffset : bytes;
  h_outputMMRSize : N; h_kernelMMRSize : N; h_totalDifficulty : N; h_scalingDifficulty : N; h_nonce : N;
  h_proofOfWork : ProofOfWork }.
(** src/Core/Models/BlockHeader.cpp:184-203. *)
Definition GetPreProofOfWork (h : BlockHeader) : bytes :=
  Append 2 (h_version h) ++ Append 8 (h_height h) ++ AppendSigned 8 (h_timestamp h) ++
  AppendBigInteger (h_previousBlockHash h) ++ AppendBigInteger (h_previousRoot h) ++ AppendBigInteger (h_outputRoot h) ++
  AppendBigInteger (h_rangeProofRoot h) ++ AppendBigInteger (h_kernelRoot h) ++ AppendBigInteger (h_totalKernelOffset h) ++
  Append 8 (h_outputMMRSize h) ++ Append 8 (h_kernelMMRSize h) ++ Append 8 (h_totalDifficulty h) ++
  Append 4 (h_scalingDifficulty h) ++ Append 8 (h_nonce h).
(** BlockHeader.cpp:41-58. *)
Definition BlockHeader_Serialize (h : BlockHeader) : bytes :=
  Append 2 (h_version h) ++ Append 8 (h_height h) ++ AppendSigned 8 (h_timestamp h) ++
  AppendBigInteger (h_previousBlockHash h) ++ AppendBigInteger (h_previousRoot h) ++ AppendBigInteger (h_outputRoot h) ++
  AppendBigInteger (h_rangeProofRoot h) ++ AppendBigInteger (h_kernelRoot h) ++ AppendBigInteger (h_totalKernelOffset h) ++
  Append 8 (h_outputMMRSize h) ++ Append 8 (h_kernelMMRSize h) ++ Append 8 (h_totalDifficulty h) ++
  Append 4 (h_scalingDifficulty h) ++ Append 8 (h_nonce h) ++ PoW_Serialize (h_proofOfWork h).

(** * Transactions *)
(** include/Core/Models/Features.h:51-64. *)
Definition DEFAULT_KERNEL : N := 0.
Definition COINBASE_KERNEL : N := 1.
Definition HEIGHT_LOCKED : N := 2.
Definition NO_RECENT_DUPLICATE : N := 3.
(** Consensus.h:123. *)
Definition WEEK_HEIGHT : N := 10080.

(** include/Core/Models/TransactionKernel.h:76-93 (the cached hash is the function [kernel_hash]). *)
Record TransactionKernel := mkKernel {
  k_features : N; k_fee : Fee; k_lockHeight : N; k_excessCommitment : bytes; k_excessSignature : bytes }.
(** src/Core/Models/TransactionKernel.cpp:25-58. *)
Definition Kernel_Serialize (v : N) (k : TransactionKernel) : bytes :=
  if 2 <=? v then
    Append 1 (k_features k) ++
    (if k_features k =? DEFAULT_KERNEL then Fee_Serialize (k_fee k)
     else if k_features k =? COINBASE_KERNEL then []
     else if k_features k =? HEIGHT_LOCKED then Fee_Serialize (k_fee k) ++ Append 8 (k_lockHeight k)
     else if k_features k =? NO_RECENT_DUPLICATE then Fee_Serialize (k_fee k) ++ Append 2 (k_lockHeight k mod W16)
     else []) ++
    AppendBigInteger (k_excessCommitment k) ++ AppendBigInteger (k_excessSignature k)
  else
    Append 1 (k_features k) ++ Fee_Serialize (k_fee k) ++ Append 8 (k_lockHeight k) ++
    AppendBigInteger (k_excessCommitment k) ++ AppendBigInteger (k_excessSignature k).
(** TransactionKernel.cpp:60-106. *)
Definition Kernel_Deserialize : reader TransactionKernel :=
  let! features := ReadU8 in
  let! v := GetProtocolVersion in
  let! fl := (if 2 <=? v then
      let! fee := (if negb (features =? COINBASE_KERNEL) then Fee_Deserialize else rret (mkFee 0 0)) in
      let! lockHeight := (if features =? HEIGHT_LOCKED then ReadU64
                          else if features =? NO_RECENT_DUPLICATE then ReadU16 else rret 0) in
      rret (fee, lockHeight)
    else
      let! fee := Fee_Deserialize in
      let! lockHeight := ReadU64 in
      rret (fee, lockHeight)) in
  let! commitment := ReadBigInteger 33 in
  let! signature := ReadBigInteger 64 in
  if (features =? NO_RECENT_DUPLICATE) && ((snd fl =? 0) || (WEEK_HEIGHT <? snd fl)) then rthrow
  else rret (mkKernel features (fst fl) (snd fl) commitment signature).
(** TransactionKernel.cpp:160-181: the bytes whose hash is signed. *)
Definition SignatureMessage (features : N) (fee : Fee) (lockHeight : N) : bytes :=
  Append 1 features ++
  (if negb (features =? COINBASE_KERNEL) then Fee_Serialize fee else []) ++
  (if features =? HEIGHT_LOCKED then Append 8 lockHeight else []) ++
  (if features =? NO_RECENT_DUPLICATE then Append 2 (lockHeight mod W16) else []).

(** include/Core/Models/TransactionInput.h:64-70. *)
Record TransactionInput := mkInput { i_features : N; i_commitment : bytes }.
(** src/Core/Models/TransactionInput.cpp:17-24. *)
Definition Input_Serialize (v : N) (i : TransactionInput) : bytes :=
  (if v <? 3 then Append 1 (i_features i) else []) ++ AppendBigInteger (i_commitment i).

(** include/Crypto/Models/RangeProof.h:14,50-64. *)
Definition MAX_PROOF_SIZE : N := 675.
Definition RangeProof_Serialize (p : bytes) : bytes := Append 8 (nlen p) ++ AppendByteVector p LenNone.
Definition RangeProof_Deserialize : reader bytes :=
  let! proofSize := ReadU64 in
  if MAX_PROOF_SIZE <? proofSize then rthrow else ReadVector proofSize.

(** include/Core/Models/TransactionOutput.h; src/Core/Models/TransactionOutput.cpp:17-41. *)
Record TransactionOutput := mkOutput { o_features : N; o_commitment : bytes; o_rangeProof : bytes }.
Definition Output_Serialize (o : TransactionOutput) : bytes :=
  Append 1 (o_features o) ++ AppendBigInteger (o_commitment o) ++ RangeProof_Serialize (o_rangeProof o).
Definition Output_Deserialize : reader TransactionOutput :=
  let! features := ReadU8 in
  let! commitment := ReadBigInteger 33 in
  let! rangeProof := RangeProof_Deserialize in
  rret (mkOutput features commitment rangeProof).

(** src/Core/Models/OutputIdentifier.cpp:17-35. *)
Record OutputIdentifier := mkOutputId { oi_features : N; oi_commitment : bytes }.
Definition OutputIdentifier_Serialize (o : OutputIdentifier) : bytes :=
  Append 1 (oi_features o) ++ AppendBigInteger (oi_commitment o).
Definition OutputIdentifier_Deserialize : reader OutputIdentifier :=
  let! features := ReadU8 in
  let! commitment := ReadBigInteger 33 in
  rret (mkOutputId features commitment).

Record TransactionBody := mkBody {
  b_inputs : list TransactionInput; b_outputs : list TransactionOutput; b_kernels : list TransactionKernel }.
(** src/Core/Models/TransactionBody.cpp:30-53. *)
Definition Body_Serialize (v : N) (b : TransactionBody) : bytes :=
  Append 8 (nlen (b_inputs b)) ++ Append 8 (nlen (b_outputs b)) ++ Append 8 (nlen (b_kernels b)) ++
  flat_map (Input_Serialize v) (b_inputs b) ++ flat_map Output_Serialize (b_outputs b) ++ flat_map (Kernel_Serialize v) (b_kernels b).

Record Transaction := mkTx { t_offset : bytes; t_body : TransactionBody }.
(** src/Core/Models/Transaction.cpp:27-35. *)
Definition Transaction_Serialize (v : N) (t : Transaction) : bytes := AppendBigInteger (t_offset t) ++ Body_Serialize v (t_body t).

Record FullBlock := mkBlock { fb_header : BlockHeader; fb_body : TransactionBody }.
(** src/Core/Models/FullBlock.cpp:9-13. *)
Definition FullBlock_Serialize (v : N) (b : FullBlock) : bytes := BlockHeader_Serialize (fb_header b) ++ Body_Serialize v (fb_body b).

(** src/Core/Models/ShortId.cpp:33-43. *)
Definition ShortId_Serialize (id : bytes) : bytes := AppendBigInteger id.
Definition ShortId_Deserialize : reader bytes := ReadVector 6.

Record CompactBlock := mkCompact {
  cb_header : BlockHeader; cb_nonce : N; cb_outputs : list TransactionOutput; cb_kernels : list TransactionKernel; cb_shortIds : list bytes }.
(** src/Core/Models/CompactBlock.cpp:18-41. *)
Definition CompactBlock_Serialize (v : N) (c : CompactBlock) : bytes :=
  BlockHeader_Serialize (cb_header c) ++ Append 8 (cb_nonce c) ++
  Append 8 (nlen (cb_outputs c)) ++ Append 8 (nlen (cb_kernels c)) ++ Append 8 (nlen (cb_shortIds c)) ++
  flat_map Output_Serialize (cb_outputs c) ++ flat_map (Kernel_Serialize v) (cb_kernels c) ++ flat_map ShortId_Serialize (cb_shortIds c).

(** include/Core/Models/BlockSums.h:26-38. *)
Record BlockSums := mkSums { m_outputSum : bytes; m_kernelSum : bytes }.
Definition BlockSums_Serialize (s : BlockSums) : bytes := AppendBigInteger (m_outputSum s) ++ AppendBigInteger (m_kernelSum s).
Definition BlockSums_Deserialize : reader BlockSums :=
  let! o := ReadBigInteger 33 in let! k := ReadBigInteger 33 in rret (mkSums o k).

(** include/Core/Models/OutputLocation.h:34-46: the position is written, the leaf index recomputed
    from it (LeafIndex::From asserts that the position is a leaf's). *)
Record OutputLocation := mkLoc { loc_leaf : LeafIndex; loc_height : N }.
Definition OutputLocation_Serialize (l : OutputLocation) : bytes :=
  Append 8 (lidx_position (loc_leaf l)) ++ Append 8 (loc_height l).
Definition OutputLocation_Deserialize : reader OutputLocation :=
  let! pos := ReadU64 in
  let! h := ReadU64 in
  fun b => match LeafIndex_AtPos pos with Ret l => Ret (mkLoc l h, b) | Throw => Throw | Fault => Fault end.
(** include/Core/Models/SpentOutput.h:34-45, 81-108. *)
Record SpentOutput := mkSpent { sp_commitment : bytes; sp_location : OutputLocation }.
Definition SpentOutput_Serialize (s : SpentOutput) : bytes := AppendBigInteger (sp_commitment s) ++ OutputLocation_Serialize (sp_location s).
Definition SpentOutput_Deserialize : reader SpentOutput :=
  let! c := ReadBigInteger 33 in let! l := OutputLocation_Deserialize in rret (mkSpent c l).
Definition SpentOutputs_Serialize (l : list SpentOutput) : bytes :=
  Append 1 0 ++ Append 2 (nlen l mod W16) ++ flat_map SpentOutput_Serialize l.
Definition SpentOutputs_Deserialize : reader (list SpentOutput) :=
  let! _ := ReadU8 in
  let! n := ReadU16 in
  read_many SpentOutput_Deserialize (N.to_nat n).

(** * Formats whose reader uses the hash function or the chain *)
Section Hashing.
Variable Blake2b : bytes -> bytes.
(** CoinView::GetOutputType (src/BlockChain/CoinView.cpp:5-19): the features byte of the output
    the chain knows under this commitment (0 when unknown). *)
Variable GetOutputType : bytes -> N.

(** ProofOfWork.cpp:49-60. *)
Definition PoW_Deserialize : reader ProofOfWork :=
  let! edgeBits := ReadU8 in
  let! bits := ReadVector (cycle_bytes_len edgeBits) in
  match DeserializeProofNonces bits edgeBits with
  | Ret nonces => rret (mkPoW edgeBits nonces (Blake2b bits))
  | _ => rthrow
  end.
(** ProofOfWork.cpp:5-12: the hash of a proof built from its nonces. *)
Definition PoW_Create (edgeBits : N) (nonces : list N) : ProofOfWork :=
  mkPoW edgeBits nonces (Blake2b (SerializeCycle edgeBits nonces)).
(** BlockHeader.h:101: a block is identified by the hash of its proof. *)
Definition BlockHeader_GetHash (h : BlockHeader) : bytes := pow_hash (h_proofOfWork h).

(** BlockHeader.cpp:60-99. *)
Definition BlockHeader_Deserialize : reader BlockHeader :=
  let! version := ReadU16 in
  let! height := ReadU64 in
  let! timestamp := Read64 in
  let! previousBlockHash := ReadBigInteger 32 in
  let! previousRoot := ReadBigInteger 32 in
  let! outputRoot := ReadBigInteger 32 in
  let! rangeProofRoot := ReadBigInteger 32 in
  let! kernelRoot := ReadBigInteger 32 in
  let! totalKernelOffset := ReadBigInteger 32 in
  let! outputMMRSize := ReadU64 in
  let! kernelMMRSize := ReadU64 in
  let! totalDifficulty := ReadU64 in
  let! scalingDifficulty := ReadU32 in
  let! nonce := ReadU64 in
  let! proofOfWork := PoW_Deserialize in
  rret (mkHeader version height timestamp previousBlockHash previousRoot outputRoot rangeProofRoot kernelRoot
          totalKernelOffset outputMMRSize kernelMMRSize totalDifficulty scalingDifficulty nonce proofOfWork).

(** TransactionInput.cpp:9-15 (protocol version 1000), TransactionOutput.cpp:5-15,
    TransactionKernel.cpp:9-23 (version 1): the hashes used for ordering. *)
Definition input_hash (i : TransactionInput) : bytes := Blake2b (Input_Serialize 1000 i).
Definition output_hash (o : TransactionOutput) : bytes := Blake2b (Append 1 (o_features o) ++ AppendBigInteger (o_commitment o)).
Definition kernel_hash (k : TransactionKernel) : bytes := Blake2b (Kernel_Serialize 1 k).

(** TransactionInput.cpp:26-37. *)
Definition Input_Deserialize : reader TransactionInput :=
  let! v := GetProtocolVersion in
  if 3 <=? v then
    let! commitment := ReadBigInteger 33 in
    rret (mkInput (GetOutputType commitment) commitment)
  else
    let! features := ReadU8 in
    let! commitment := ReadBigInteger 33 in
    rret (mkInput features commitment).

(** TransactionBody.cpp:9-16 after 55-87 (the vectors are sorted twice). *)
Definition Body_sorted (inputs : list TransactionInput) (outputs : list TransactionOutput) (kernels : list TransactionKernel) : TransactionBody :=
  mkBody (sort_by input_hash inputs) (sort_by output_hash outputs) (sort_by kernel_hash kernels).
Definition Body_Deserialize : reader TransactionBody :=
  let! numInputs := ReadU64 in
  let! numOutputs := ReadU64 in
  let! numKernels := ReadU64 in
  let! inputs := read_many Input_Deserialize (N.to_nat numInputs) in
  let! outputs := read_many Output_Deserialize (N.to_nat numOutputs) in
  let! kernels := read_many Kernel_Deserialize (N.to_nat numKernels) in
  rret (Body_sorted (sort_by input_hash inputs) (sort_by output_hash outputs) (sort_by kernel_hash kernels)).

(** Transaction.cpp:37-46. *)
Definition Transaction_Deserialize : reader Transaction :=
  let! offset := ReadBigInteger 32 in
  let! body := Body_Deserialize in
  rret (mkTx offset body).
(** FullBlock.cpp:15-21. *)
Definition FullBlock_Deserialize : reader FullBlock :=
  let! header := BlockHeader_Deserialize in
  let! body := Body_Deserialize in
  rret (mkBlock header body).
(** CompactBlock.cpp:43-71. *)
Definition CompactBlock_Deserialize : reader CompactBlock :=
  let! header := BlockHeader_Deserialize in
  let! nonce := ReadU64 in
  let! numOutputs := ReadU64 in
  let! numKernels := ReadU64 in
  let! numShortIds := ReadU64 in
  let! outputs := read_many Output_Deserialize (N.to_nat numOutputs) in
  let! kernels := read_many Kernel_Deserialize (N.to_nat numKernels) in
  let! shortIds := read_many ShortId_Deserialize (N.to_nat numShortIds) in
  rret (mkCompact header nonce outputs kernels shortIds).
End Hashing.
