(** Model of the output set of the node (TxHashSet): the kernel, output and range proof MMRs with their leaf sets, and the
    tables of the block database that say where outputs are. The prune lists are empty, as for a node that applied every block
    itself (TxHashSet::Compact is not implemented, TxHashSetImpl.cpp:389-392; reads, appends and rewinds through a non-empty
    prune list are related to these in PruneProps.v). Data and hash files are lists of records (FileProps.v). *)
From Verif Require Import Base Bytes MMRIndexModel MMRHashModel FileModel BitmapModel SerialModel CodecModel ConsensusModel.
Local Open Scope N_scope.

(** * The block database: a table is an association list, newest entry first *)
Definition table (A : Type) := list (bytes * A).
(** src/Database/RocksDB Get, Put and Delete of one table. *)
Fixpoint tget {A} (t : table A) (k : bytes) : option A :=
  match t with [] => None | (k', v) :: t' => if bytes_eqb k k' then Some v else tget t' k end.
Definition tput {A} (t : table A) (k : bytes) (v : A) : table A := (k, v) :: t.
Definition tdel {A} (t : table A) (k : bytes) : table A := filter (fun e => negb (bytes_eqb (fst e) k)) t.
Definition tdels {A} (t : table A) (ks : list bytes) : table A := fold_left tdel ks t.
(** src/Database/BlockDBImpl.h, BlockDBImpl.cpp:33-38: the tables used here. *)
Record blockdb := mkDB {
  d_blocks : table FullBlock; d_headers : table BlockHeader; d_sums : table BlockSums;
  d_positions : table OutputLocation; d_spent : table (list SpentOutput) }.
Definition set_positions (d : blockdb) (p : table OutputLocation) : blockdb :=
  mkDB (d_blocks d) (d_headers d) (d_sums d) p (d_spent d).
(** BlockDBImpl.cpp:257-280: AddOutputPosition, GetOutputPosition, RemoveOutputPositions. *)
Definition AddOutputPosition (d : blockdb) (c : bytes) (l : OutputLocation) : blockdb := set_positions d (tput (d_positions d) c l).
Definition GetOutputPosition (d : blockdb) (c : bytes) : option OutputLocation := tget (d_positions d) c.
Definition RemoveOutputPositions (d : blockdb) (cs : list bytes) : blockdb := set_positions d (tdels (d_positions d) cs).
(** BlockDBImpl.cpp:289-310. The lists have fewer than 2^16 entries (block weight, C27), so their length field does not wrap. *)
Definition AddSpentPositions (d : blockdb) (hash : bytes) (l : list SpentOutput) : blockdb :=
  mkDB (d_blocks d) (d_headers d) (d_sums d) (d_positions d) (tput (d_spent d) hash l).
Definition GetSpentPositions (d : blockdb) (hash : bytes) : outcome (list SpentOutput) :=
  match tget (d_spent d) hash with Some l => Ret l | None => Throw end.
(** include/Core/Models/SpentOutput.h:66-77: BuildMap keeps the first entry of a commitment. *)
Fixpoint spent_find (l : list SpentOutput) (c : bytes) : option OutputLocation :=
  match l with [] => None | s :: l' => if bytes_eqb (sp_commitment s) c then Some (sp_location s) else spent_find l' c end.

(** * The MMRs *)
Section Utxo.
Variable Blake2b : bytes -> bytes.
Variable env : Environment.

(** src/PMMR/Common/PruneableMMR.h:160-165, without the prune list. *)
Record pmmr := mkPmmr { p_hash : list bytes; p_data : list bytes; p_leaf : bitmapfile }.
(** PruneableMMR.h:38-52. *)
Definition PMMR_Append (m : pmmr) (serialized : bytes) : outcome pmmr :=
  let* l := LeafIndex_AtPos (GetSize (p_hash m)) in
  let* f := AddHashes Blake2b (p_hash m) serialized in
  Ret (mkPmmr f (p_data m ++ [serialized]) (BF_Set (p_leaf m) (lidx_leaf l))).
(** PruneableMMR.h:54-65. *)
Definition PMMR_Remove (m : pmmr) (l : LeafIndex) : outcome pmmr :=
  if IsSet (p_leaf m) (lidx_leaf l) then Ret (mkPmmr (p_hash m) (p_data m) (BF_Unset (p_leaf m) (lidx_leaf l))) else Throw.
(** PruneableMMR.h:67-75. *)
Definition PMMR_Rewind (m : pmmr) (num_leaves : N) (leavesToAdd : list N) : outcome pmmr :=
  let* f := RewindHashes (p_hash m) num_leaves in
  if num_leaves <=? nlen (p_data m)
  then Ret (mkPmmr f (firstn (N.to_nat num_leaves) (p_data m)) (BF_Rewind (p_leaf m) num_leaves leavesToAdd))
  else Throw.
(** PruneableMMR.h:107-110. *)
Definition PMMR_IsUnpruned (m : pmmr) (l : LeafIndex) : bool :=
  (lidx_position l <? GetSize (p_hash m)) && IsSet (p_leaf m) (lidx_leaf l).
(** PruneableMMR.h:117-136 up to the deserialization; a record always has the size of the file's records. *)
Definition PMMR_GetAt (m : pmmr) (l : LeafIndex) : outcome (option bytes) :=
  if PMMR_IsUnpruned m l then omap Some (GetDataAt (p_data m) (lidx_leaf l)) else Ret None.

(** src/PMMR/KernelMMR.h:47-49. *)
Record kmmr := mkKmmr { km_hash : list bytes; km_data : list bytes }.
(** src/PMMR/KernelMMR.cpp:71-77. *)
Definition ApplyKernel (m : kmmr) (k : TransactionKernel) : outcome kmmr :=
  let serialized := Kernel_Serialize 1 k in
  let* f := AddHashes Blake2b (km_hash m) serialized in Ret (mkKmmr f (km_data m ++ [serialized])).
(** KernelMMR.cpp:52-57. *)
Definition KMMR_Rewind (m : kmmr) (num_kernels : N) : outcome kmmr :=
  let* f := RewindHashes (km_hash m) num_kernels in
  if num_kernels <=? nlen (km_data m) then Ret (mkKmmr f (firstn (N.to_nat num_kernels) (km_data m))) else Throw.

(** src/PMMR/TxHashSetImpl.h: the three MMRs and the header of the last block applied. *)
Record txhashset := mkSet { m_pKernelMMR : kmmr; m_pOutputPMMR : pmmr; m_pRangeProofPMMR : pmmr; m_pBlockHeader : BlockHeader }.

(** src/Core/Models/OutputIdentifier.cpp:10-24: FromOutput and Serialize. *)
Definition FromOutput (o : TransactionOutput) : OutputIdentifier := mkOutputId (o_features o) (o_commitment o).
(** PruneableMMR.h:124-127 with OutputIdentifier.cpp:26-35: the record of an output read back. *)
Definition Output_GetAt (s : txhashset) (l : LeafIndex) : outcome (option OutputIdentifier) :=
  let* r := PMMR_GetAt (m_pOutputPMMR s) l in
  match r with
  | None => Ret None
  | Some data => let* x := OutputIdentifier_Deserialize (mkBB 0 data 1) in Ret (Some (fst x))
  end.
(** include/Core/Models/OutputIdentifier.h:47: the coinbase bit. *)
Definition IsCoinbase (o : OutputIdentifier) : bool := N.land (oi_features o) 1 =? 1.

(** TxHashSetImpl.cpp:109-131: the loop over the inputs. [Ret None] is [return false]; the null check of line 118 is an assert. *)
Fixpoint spend_inputs (maximumBlockHeight : N) (d : blockdb) (inputs : list TransactionInput) (s : txhashset) (spent : list SpentOutput)
    : outcome (option (txhashset * list SpentOutput)) :=
  match inputs with
  | [] => Ret (Some (s, spent))
  | input :: rest =>
    match GetOutputPosition d (i_commitment input) with
    | None => Ret None
    | Some loc =>
      let* pOutput := Output_GetAt s (loc_leaf loc) in
      match pOutput with
      | None => Fault
      | Some o =>
        if IsCoinbase o && (maximumBlockHeight <? loc_height loc) then Ret None else
        let* om := PMMR_Remove (m_pOutputPMMR s) (loc_leaf loc) in
        let* rm := PMMR_Remove (m_pRangeProofPMMR s) (loc_leaf loc) in
        spend_inputs maximumBlockHeight d rest (mkSet (m_pKernelMMR s) om rm (m_pBlockHeader s))
                     (spent ++ [mkSpent (i_commitment input) loc])
      end
    end
  end.
(** TxHashSetImpl.cpp:136-153: the loop over the outputs. *)
Fixpoint add_outputs (height : N) (outputs : list TransactionOutput) (s : txhashset) (d : blockdb) : outcome (option (txhashset * blockdb)) :=
  match outputs with
  | [] => Ret (Some (s, d))
  | output :: rest =>
    if match GetOutputPosition d (o_commitment output) with
       | Some loc => PMMR_IsUnpruned (m_pOutputPMMR s) (loc_leaf loc)
       | None => false
       end
    then Ret None else
    let* l := LeafIndex_AtPos (GetSize (p_hash (m_pOutputPMMR s))) in
    let* om := PMMR_Append (m_pOutputPMMR s) (OutputIdentifier_Serialize (FromOutput output)) in
    let* rm := PMMR_Append (m_pRangeProofPMMR s) (RangeProof_Serialize (o_rangeProof output)) in
    add_outputs height rest (mkSet (m_pKernelMMR s) om rm (m_pBlockHeader s)) (AddOutputPosition d (o_commitment output) (mkLoc l height))
  end.
(** TxHashSetImpl.cpp:157-160. *)
Definition add_kernels (kernels : list TransactionKernel) (m : kmmr) : outcome kmmr :=
  fold_left (fun (acc : outcome kmmr) k => let* m := acc in ApplyKernel m k) kernels (Ret m).
(** TxHashSetImpl.cpp:98-163. [Ret None] is [return false]; the batch is then given up (BlockProcessor.cpp:197-199). *)
Definition ApplyBlock (d : blockdb) (block : FullBlock) (s : txhashset) : outcome (option (txhashset * blockdb)) :=
  let maximumBlockHeight := GetMaxCoinbaseHeight env (h_height (fb_header block)) in
  let* r := spend_inputs maximumBlockHeight d (b_inputs (fb_body block)) s [] in
  match r with
  | None => Ret None
  | Some (s1, spentPositions) =>
    let d1 := AddSpentPositions d (BlockHeader_GetHash (fb_header block)) spentPositions in
    let* r := add_outputs (h_height (fb_header block)) (b_outputs (fb_body block)) s1 d1 in
    match r with
    | None => Ret None
    | Some (s2, d2) =>
      let d3 := RemoveOutputPositions d2 (map i_commitment (b_inputs (fb_body block))) in
      let* km := add_kernels (b_kernels (fb_body block)) (m_pKernelMMR s2) in
      Ret (Some (mkSet km (m_pOutputPMMR s2) (m_pRangeProofPMMR s2) (fb_header block), d3))
    end
  end.

(** include/Core/Models/BlockHeader.h:86-87. *)
Definition GetNumOutputs (h : BlockHeader) : outcome N := GetLeafIndex (Index_At (h_outputMMRSize h)).
Definition GetNumKernels (h : BlockHeader) : outcome N := GetLeafIndex (Index_At (h_kernelMMRSize h)).

(** TxHashSetImpl.cpp:165-193. *)
Definition ValidateRoots (s : txhashset) (h : BlockHeader) : outcome bool :=
  let* kernelRoot := Root Blake2b (km_hash (m_pKernelMMR s)) (h_kernelMMRSize h) in
  if negb (bytes_eqb kernelRoot (h_kernelRoot h)) then Ret false else
  let* outputRoot := Root Blake2b (p_hash (m_pOutputPMMR s)) (h_outputMMRSize h) in
  let* outputs_ok :=
    if h_version h <? 3 then Ret (bytes_eqb outputRoot (h_outputRoot h))
    else let* n := GetNumOutputs h in
         let* UBMT := LeafSet_Root Blake2b (p_leaf (m_pOutputPMMR s)) n in
         Ret (bytes_eqb (HashParentWithIndex Blake2b outputRoot UBMT (h_outputMMRSize h)) (h_outputRoot h)) in
  if negb outputs_ok then Ret false else
  let* proofRoot := Root Blake2b (p_hash (m_pRangeProofPMMR s)) (h_outputMMRSize h) in
  Ret (bytes_eqb proofRoot (h_rangeProofRoot h)).

(** TxHashSetImpl.cpp:353-361: the loop over the inputs of a rewound block. *)
Fixpoint unspend_inputs (spent : list SpentOutput) (inputs : list TransactionInput) (d : blockdb) (leavesToAdd : list N) : outcome (blockdb * list N) :=
  match inputs with
  | [] => Ret (d, leavesToAdd)
  | input :: rest =>
    match spent_find spent (i_commitment input) with
    | None => Throw
    | Some loc => unspend_inputs spent rest (AddOutputPosition d (i_commitment input) loc) (leavesToAdd ++ [lidx_leaf (loc_leaf loc)])
    end
  end.
(** TxHashSetImpl.cpp:339-364: the loop. [None]: not finished after [fuel] turns. A missing header is dereferenced. *)
Fixpoint rewind_blocks (fuel : nat) (target : bytes) (current : BlockHeader) (d : blockdb) (leavesToAdd : list N)
    : option (outcome (blockdb * list N)) :=
  if bytes_eqb (BlockHeader_GetHash current) target then Some (Ret (d, leavesToAdd)) else
  match fuel with
  | O => None
  | S n =>
    match tget (d_blocks d) (BlockHeader_GetHash current) with
    | None => Some Throw
    | Some block =>
      match GetSpentPositions d (BlockHeader_GetHash current) with
      | Ret spent =>
        let d1 := RemoveOutputPositions d (map o_commitment (b_outputs (fb_body block))) in
        match unspend_inputs spent (b_inputs (fb_body block)) d1 leavesToAdd with
        | Ret (d2, leaves) =>
          match tget (d_headers d) (h_previousBlockHash current) with
          | Some h => rewind_blocks n target h d2 leaves
          | None => Some Fault
          end
        | Throw => Some Throw
        | Fault => Some Fault
        end
      | Throw => Some Throw
      | Fault => Some Fault
      end
    end
  end.
(** TxHashSetImpl.cpp:365-367. [m_pBlockHeader] is the stored header with the target's hash. *)
Definition rewind_mmrs (header : BlockHeader) (leavesToAdd : list N) (s : txhashset) : outcome txhashset :=
  let* nk := GetNumKernels header in
  let* km := KMMR_Rewind (m_pKernelMMR s) nk in
  let* no := GetNumOutputs header in
  let* om := PMMR_Rewind (m_pOutputPMMR s) no leavesToAdd in
  let* rm := PMMR_Rewind (m_pRangeProofPMMR s) no leavesToAdd in
  Ret (mkSet km om rm header).
(** TxHashSetImpl.cpp:339-368. *)
Definition Rewind (fuel : nat) (header : BlockHeader) (s : txhashset) (d : blockdb) : option (outcome (txhashset * blockdb)) :=
  match rewind_blocks fuel (BlockHeader_GetHash header) (m_pBlockHeader s) d [] with
  | None => None
  | Some (Ret (d', leaves)) => Some (let* s' := rewind_mmrs header leaves s in Ret (s', d'))
  | Some Throw => Some Throw
  | Some Fault => Some Fault
  end.

(** TxHashSetImpl.cpp:30-75: IsValid, for a transaction. *)
Fixpoint valid_inputs (maximumBlockHeight : N) (d : blockdb) (s : txhashset) (inputs : list TransactionInput) : outcome bool :=
  match inputs with
  | [] => Ret true
  | input :: rest =>
    match GetOutputPosition d (i_commitment input) with
    | None => Ret false
    | Some loc =>
      let* pOutput := Output_GetAt s (loc_leaf loc) in
      match pOutput with
      | None => Ret false
      | Some o =>
        if negb (bytes_eqb (oi_commitment o) (i_commitment input)) then Ret false
        else if IsCoinbase o && (maximumBlockHeight <? loc_height loc) then Ret false
        else valid_inputs maximumBlockHeight d s rest
      end
    end
  end.
Fixpoint valid_outputs (d : blockdb) (s : txhashset) (outputs : list TransactionOutput) : outcome bool :=
  match outputs with
  | [] => Ret true
  | output :: rest =>
    match GetOutputPosition d (o_commitment output) with
    | None => valid_outputs d s rest
    | Some loc =>
      let* pOutput := Output_GetAt s (loc_leaf loc) in
      match pOutput with
      | Some o => if bytes_eqb (oi_commitment o) (o_commitment output) then Ret false else valid_outputs d s rest
      | None => valid_outputs d s rest
      end
    end
  end.
Definition IsValid (d : blockdb) (s : txhashset) (t : Transaction) : outcome bool :=
  let next_height := add64 (h_height (m_pBlockHeader s)) 1 in
  let* a := valid_inputs (GetMaxCoinbaseHeight env next_height) d s (b_inputs (t_body t)) in
  if a then valid_outputs d s (b_outputs (t_body t)) else Ret false.

(** TxHashSetManager.cpp:20-49 Open on an empty directory: KernelMMR::Load, OutputPMMR::Load and RangeProofPMMR::Load append the
    genesis kernel, output and proof. *)
Definition Open_fresh (genesis : FullBlock) : outcome txhashset :=
  match b_kernels (fb_body genesis), b_outputs (fb_body genesis) with
  | k :: _, o :: _ =>
    let* km := ApplyKernel (mkKmmr [] []) k in
    let* om := PMMR_Append (mkPmmr [] [] (BF_Load [])) (OutputIdentifier_Serialize (FromOutput o)) in
    let* rm := PMMR_Append (mkPmmr [] [] (BF_Load [])) (RangeProof_Serialize (o_rangeProof o)) in
    Ret (mkSet km om rm (fb_header genesis))
  | _, _ => Fault
  end.
End Utxo.
