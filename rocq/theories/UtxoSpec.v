(** What the output set should be: a ledger of all coins ever created, in order, each unspent or spent, and all kernels. *)
From Verif Require Import Base Bytes MMRIndexModel MMRHashModel MMRHashSpec BitmapModel CodecModel ConsensusModel UtxoModel.
Local Open Scope N_scope.

Record coin := mkCoin { c_features : N; c_commitment : bytes; c_proof : bytes; c_height : N }.
(** [true]: not spent. *)
Definition outs := list (coin * bool).
Record ledger := mkLedger { l_outs : outs; l_kernels : list TransactionKernel }.

Definition coin_of (height : N) (o : TransactionOutput) : coin := mkCoin (o_features o) (o_commitment o) (o_rangeProof o) height.
Definition coinbase (c : coin) : Prop := N.testbit (c_features c) 0 = true.
(** Coins minted in a block mature after a day of blocks (25 blocks on the testing network); those of the genesis block at once. *)
Definition maturity (env : Environment) : N := match env with AUTOMATED_TESTING => 25 | _ => 1440 end.
Definition mature (env : Environment) (c : coin) (height : N) : Prop :=
  coinbase c -> c_height c = 0 \/ c_height c + maturity env <= height.

(** Coin number [i] becomes spent. *)
Fixpoint spend (i : nat) (l : outs) : outs :=
  match l, i with
  | (c, _) :: l', O => (c, false) :: l'
  | x :: l', S i' => x :: spend i' l'
  | [], _ => []
  end.
(** Every input takes an unspent coin with its commitment. Only the coins from number [g] on are known by their commitment: a node
    that starts from the genesis block never learns the position of the genesis coin ([g = 1]). *)
Inductive spends (env : Environment) (g : nat) (height : N) : list TransactionInput -> outs -> outs -> Prop :=
| spends_none o : spends env g height [] o o
| spends_one x rest i c o o' :
    (g <= i)%nat -> nth_error o i = Some (c, true) -> c_commitment c = i_commitment x -> mature env c height ->
    spends env g height rest (spend i o) o' -> spends env g height (x :: rest) o o'.
(** Every output becomes a new coin; its commitment must not be that of an unspent coin. *)
Inductive creates (g : nat) (height : N) : list TransactionOutput -> outs -> outs -> Prop :=
| creates_none o : creates g height [] o o
| creates_one x rest o o' :
    (forall i c, (g <= i)%nat -> nth_error o i = Some (c, true) -> c_commitment c <> o_commitment x) ->
    creates g height rest (o ++ [(coin_of height x, true)]) o' -> creates g height (x :: rest) o o'.
(** The block turns one ledger into the other. *)
Definition applies (env : Environment) (g : nat) (b : FullBlock) (l l' : ledger) : Prop :=
  let height := h_height (fb_header b) in
  (exists o, spends env g height (b_inputs (fb_body b)) (l_outs l) o /\ creates g height (b_outputs (fb_body b)) o (l_outs l')) /\
  l_kernels l' = l_kernels l ++ b_kernels (fb_body b).

(** The records of the three MMRs. *)
Definition output_records (o : outs) : list bytes := map (fun e => c_features (fst e) :: c_commitment (fst e)) o.
Definition proof_records (o : outs) : list bytes := map (fun e => be_bytes 8 (N.of_nat (length (c_proof (fst e)))) ++ c_proof (fst e)) o.
Definition kernel_records (ks : list TransactionKernel) : list bytes := map (Kernel_Serialize 1) ks.

Section Represents.
Variable H : bytes -> bytes.
(** The hash file is that of the mountain range over the records. *)
Definition files (records : list bytes) (hashes data : list bytes) : Prop :=
  data = records /\ exists ts, is_mmr ts records /\ hashes = mmr_hashes H 0 ts.
(** The leaf set holds the numbers of the unspent coins. *)
Definition leafset (o : outs) (b : bitmapfile) : Prop :=
  forall i, IsSet b i = true <-> exists c, nth_error o (N.to_nat i) = Some (c, true).
(** A leaf set file as the code makes them: loaded from a file of bytes and changed by the operations of BitmapFile. *)
Definition bitmap_reachable (b : bitmapfile) : Prop := exists f ops, is_bytes f /\ b = fold_left BF_step ops (BF_Load f).
(** The index finds the unspent coins, from number [g] on, by their commitment. *)
Definition indexed (g : nat) (o : outs) (d : blockdb) : Prop :=
  forall c loc, GetOutputPosition d c = Some loc <->
    exists i k, (g <= i)%nat /\ nth_error o i = Some (k, true) /\ c_commitment k = c /\
                loc = mkLoc (LeafIndex_At (N.of_nat i)) (c_height k).
Record represents (g : nat) (l : ledger) (s : txhashset) (d : blockdb) : Prop := mkRep {
  rep_coins : Forall (fun e => c_features (fst e) < 256 /\ length (c_commitment (fst e)) = 33%nat) (l_outs l);
  rep_known : (g <= length (l_outs l))%nat;
  rep_bits : bitmap_reachable (p_leaf (m_pOutputPMMR s)) /\ bitmap_reachable (p_leaf (m_pRangeProofPMMR s));
  rep_kernels : files (kernel_records (l_kernels l)) (km_hash (m_pKernelMMR s)) (km_data (m_pKernelMMR s));
  rep_outputs : files (output_records (l_outs l)) (p_hash (m_pOutputPMMR s)) (p_data (m_pOutputPMMR s));
  rep_proofs : files (proof_records (l_outs l)) (p_hash (m_pRangeProofPMMR s)) (p_data (m_pRangeProofPMMR s));
  rep_leaf_o : leafset (l_outs l) (p_leaf (m_pOutputPMMR s));
  rep_leaf_r : leafset (l_outs l) (p_leaf (m_pRangeProofPMMR s));
  rep_index : indexed g (l_outs l) d }.
End Represents.

(** What the network code guarantees of a block: field sizes, and no commitment both spent and created (C46). *)
Definition well_formed (b : FullBlock) : Prop :=
  Forall (fun o => o_features o < 256 /\ length (o_commitment o) = 33%nat) (b_outputs (fb_body b)) /\
  (forall x o, In x (b_inputs (fb_body b)) -> In o (b_outputs (fb_body b)) -> i_commitment x <> o_commitment o).
(** Fewer than 2^62 of everything. *)
Definition room (l : ledger) : Prop := N.of_nat (length (l_outs l)) < 2 ^ 62 /\ N.of_nat (length (l_kernels l)) < 2 ^ 62.

(** Blocks applied and rewound in any order, as the block processor does. *)
Section Chain.
Variable H : bytes -> bytes.
Variable env : Environment.
(** src/BlockChain/Processors/BlockProcessor.cpp:220-221 (AddBlockSums, AddBlock); the header was stored before (ProcessSingleHeader). *)
Definition store_block (b : FullBlock) (sums : BlockSums) (d : blockdb) : blockdb :=
  let hash := BlockHeader_GetHash (fb_header b) in
  mkDB (tput (d_blocks d) hash b) (tput (d_headers d) hash (fb_header b)) (tput (d_sums d) hash sums) (d_positions d) (d_spent d).
(** The sizes in the header are those of the files after the block. Nothing in ApplyBlock or ValidateRoots checks this. *)
Definition honest_sizes (s : txhashset) (h : BlockHeader) : Prop :=
  h_outputMMRSize h = GetSize (p_hash (m_pOutputPMMR s)) /\ h_kernelMMRSize h = GetSize (km_hash (m_pKernelMMR s)).
Definition tip (base : BlockHeader) (chain : list FullBlock) : BlockHeader := last (map fb_header chain) base.
(** [history chain s d]: some sequence of applied and rewound blocks has led to [s] and [d], and [chain] are the blocks applied and
    not rewound. Blocks of one chain have different hashes. *)
Inductive history (base : BlockHeader) (s0 : txhashset) (d0 : blockdb) : list FullBlock -> txhashset -> blockdb -> Prop :=
| history_start : history base s0 d0 [] s0 d0
| history_apply chain s d b sums s' d' :
    history base s0 d0 chain s d ->
    h_previousBlockHash (fb_header b) = BlockHeader_GetHash (tip base chain) ->
    ~ In (BlockHeader_GetHash (fb_header b)) (map BlockHeader_GetHash (base :: map fb_header chain)) ->
    well_formed b ->
    ApplyBlock H env d b s = Ret (Some (s', d')) ->
    honest_sizes s' (fb_header b) ->
    N.of_nat (length (p_data (m_pOutputPMMR s)) + length (b_outputs (fb_body b))) < 2 ^ 62 ->
    N.of_nat (length (km_data (m_pKernelMMR s)) + length (b_kernels (fb_body b))) < 2 ^ 62 ->
    history base s0 d0 (chain ++ [b]) s' (store_block b sums d')
| history_rewind chain undone fuel s d s' d' :
    history base s0 d0 (chain ++ undone) s d ->
    Rewind fuel (tip base chain) s d = Some (Ret (s', d')) ->
    history base s0 d0 chain s' d'.
End Chain.
(** The ledger after a chain of blocks. *)
Inductive chain_ledger (env : Environment) (g : nat) (l0 : ledger) : list FullBlock -> ledger -> Prop :=
| chain_ledger_nil : chain_ledger env g l0 [] l0
| chain_ledger_snoc chain b l l' : chain_ledger env g l0 chain l -> applies env g b l l' -> chain_ledger env g l0 (chain ++ [b]) l'.

(** Two output sets that no reader can tell apart. *)
Definition same_set (s s' : txhashset) : Prop :=
  m_pKernelMMR s = m_pKernelMMR s' /\
  p_hash (m_pOutputPMMR s) = p_hash (m_pOutputPMMR s') /\ p_data (m_pOutputPMMR s) = p_data (m_pOutputPMMR s') /\
  p_hash (m_pRangeProofPMMR s) = p_hash (m_pRangeProofPMMR s') /\ p_data (m_pRangeProofPMMR s) = p_data (m_pRangeProofPMMR s') /\
  (forall i, IsSet (p_leaf (m_pOutputPMMR s)) i = IsSet (p_leaf (m_pOutputPMMR s')) i) /\
  (forall i, IsSet (p_leaf (m_pRangeProofPMMR s)) i = IsSet (p_leaf (m_pRangeProofPMMR s')) i) /\
  m_pBlockHeader s = m_pBlockHeader s'.
Definition same_positions (d d' : blockdb) : Prop := forall c, GetOutputPosition d c = GetOutputPosition d' c.

(** Where a history may start: the files and the index represent [l0], and the header of the last block is stored and has the sizes of
    the files. *)
Record start (H : bytes -> bytes) (g : nat) (l0 : ledger) (base : BlockHeader) (s0 : txhashset) (d0 : blockdb) : Prop := mkStart {
  start_rep : represents H g l0 s0 d0;
  start_header : m_pBlockHeader s0 = base;
  start_stored : tget (d_headers d0) (BlockHeader_GetHash base) = Some base;
  start_sizes : honest_sizes s0 base;
  start_room : room l0 }.
(** A new node: an output set opened on an empty directory, and a database that knows the genesis header
    (src/BlockChain/ChainState.cpp:38-64 Create stores no output position). *)
Definition fresh_node (H : bytes -> bytes) (genesis : FullBlock) (s0 : txhashset) (d0 : blockdb) : Prop :=
  length (b_kernels (fb_body genesis)) = 1%nat /\ length (b_outputs (fb_body genesis)) = 1%nat /\ well_formed genesis /\
  h_outputMMRSize (fb_header genesis) = 1 /\ h_kernelMMRSize (fb_header genesis) = 1 /\
  Open_fresh H genesis = Ret s0 /\ d_positions d0 = [] /\
  tget (d_headers d0) (BlockHeader_GetHash (fb_header genesis)) = Some (fb_header genesis).
Definition genesis_ledger (genesis : FullBlock) : ledger :=
  mkLedger (map (fun o => (coin_of 0 o, true)) (b_outputs (fb_body genesis))) (b_kernels (fb_body genesis)).
