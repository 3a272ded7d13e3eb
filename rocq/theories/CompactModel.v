(** Model of compact blocks: src/BlockChain/CompactBlockFactory.cpp, src/BlockChain/BlockHydrator.cpp, src/Core/Models/ShortId.cpp, the search of
    the pool by short ids, and AddCompactBlock with the reaction of src/P2P/MessageProcessor.cpp to its result. *)
From Verif Require Import Base Bytes FileModel SerialModel CodecModel ConsensusModel CuckooModel HeaderModel ValidationModel UtxoModel BlockModel PoolModel.
Local Open Scope N_scope.

Section Compact.
Variable Blake2b : bytes -> bytes.
(** Hasher::SipHash24 (src/Crypto/ThirdParty/siphash.h), of the two keys and the data. *)
Variable SipHash24 : N -> N -> bytes -> N.

(** src/Core/Models/ShortId.cpp:10-31: Create. *)
Definition ShortId_Create (hash blockHash : bytes) (nonce : N) : bytes :=
  let hashWithNonce := Blake2b (AppendBigInteger blockHash ++ Append 8 nonce) in
  let k0 := le_value (firstn 8 hashWithNonce) in
  let k1 := le_value (firstn 8 (skipn 8 hashWithNonce)) in
  firstn 6 (le_bytes 8 (SipHash24 k0 k1 hash)).

(** CompactBlockFactory.cpp:6-44: CreateCompactBlock. [nonce]: CSPRNG::GenerateRandom(0, UINT64_MAX). *)
Definition CreateCompactBlock (nonce : N) (b : FullBlock) : CompactBlock :=
  let body := fb_body b in
  let coinbaseOutputs := filter output_IsCoinbase (b_outputs body) in
  let coinbaseKernels := filter kernel_IsCoinbase (b_kernels body) in
  let kernelIds := map (fun k => ShortId_Create (kernel_hash Blake2b k) (BlockHeader_GetHash (fb_header b)) nonce)
                       (filter (fun k => negb (kernel_IsCoinbase k)) (b_kernels body)) in
  mkCompact (fb_header b) nonce (sort_by (output_hash Blake2b) coinbaseOutputs) (sort_by (kernel_hash Blake2b) coinbaseKernels)
            (sort_by Blake2b kernelIds).

(** std::set<ShortId> of a vector (BlockHydrator.cpp:23): the ids without repetitions. Ids are equal if neither is less. *)
Fixpoint id_set (l : list bytes) : list bytes :=
  match l with
  | [] => []
  | x :: rest => if existsb (bytes_eqb x) rest then id_set rest else x :: id_set rest
  end.
(** src/TxPool/Pool.cpp:9-30: GetTransactionsByShortId, over the kernels of the pool in order. [count]: missingShortIds.size(). *)
Fixpoint find_short_ids (id_of : TransactionKernel -> bytes) (missing : list bytes) (found : list txptr) (l : list (txptr * TransactionKernel)) : list txptr :=
  match l with
  | [] => found
  | (t, k) :: rest =>
    if existsb (bytes_eqb (id_of k)) missing then
      let found' := found ++ [t] in
      if (length found' =? length missing)%nat then found' else find_short_ids id_of missing found' rest
    else find_short_ids id_of missing found rest
  end.
Definition pool_kernels (p : list entry) : list (txptr * TransactionKernel) :=
  flat_map (fun e => map (fun k => (e_ptr e, k)) (b_kernels (t_body (e_tx e)))) p.
Definition GetTransactionsByShortId (hash : bytes) (nonce : N) (missing : list bytes) (p : list entry) : list txptr :=
  find_short_ids (fun k => ShortId_Create (kernel_hash Blake2b k) hash nonce) missing [] (pool_kernels p).

(** BlockHydrator.cpp:46-93: what was seen before (by hash) is left out. *)
Fixpoint first_of_each {A} (hash : A -> bytes) (seen : list bytes) (l : list A) : list A :=
  match l with
  | [] => []
  | x :: rest => if existsb (bytes_eqb (hash x)) seen then first_of_each hash seen rest else x :: first_of_each hash (hash x :: seen) rest
  end.
(** BlockHydrator.cpp:35-108. *)
Definition Hydrate_with (c : CompactBlock) (transactions : list Transaction) : FullBlock :=
  let allInputs := first_of_each (input_hash Blake2b) [] (flat_map (fun t => b_inputs (t_body t)) transactions) in
  let allOutputs := first_of_each (output_hash Blake2b) [] (flat_map (fun t => b_outputs (t_body t)) transactions ++ cb_outputs c) in
  let allKernels := first_of_each (kernel_hash Blake2b) [] (flat_map (fun t => b_kernels (t_body t)) transactions ++ cb_kernels c) in
  let '(ins, outs) := PerformCutThrough allInputs allOutputs in
  mkBlock (cb_header c) (Body_sorted Blake2b ins outs allKernels).
(** BlockHydrator.cpp:12-33. *)
Definition Hydrate (c : CompactBlock) (p : list entry) : option FullBlock :=
  match cb_shortIds c with
  | [] => Some (Hydrate_with c [])
  | shortIds =>
    let transactions := GetTransactionsByShortId (BlockHeader_GetHash (cb_header c)) (cb_nonce c) (id_set shortIds) p in
    if (length transactions =? length shortIds)%nat then Some (Hydrate_with c (map p_tx transactions)) else None
  end.

(** The node (BlockModel.v); [memPool]: the memory pool of its transaction pool (TransactionPoolImpl.cpp:13-18). *)
Variable pool : Type.
Variable memPool : pool -> list entry.
Variable ReconcileBlock : blockdb -> txhashset -> BlockHeader -> FullBlock -> pool -> outcome unit * pool.
Variable BAD_BLOCKS : bytes -> bool.
Variable env : Environment.
Variable pow_keys : BlockHeader -> sip.
Variable verify_self_consistent : FullBlock -> outcome unit.
Variable validate_block_sums : BlockSums -> FullBlock -> outcome BlockSums.
Notation ProcessBlock := (ProcessBlock pool ReconcileBlock Blake2b BAD_BLOCKS env pow_keys verify_self_consistent validate_block_sums).

(** src/BlockChain/BlockChainImpl.cpp:138-173: AddCompactBlock. [Missing]: EBlockChainStatus::TRANSACTIONS_MISSING. *)
Inductive compact_status := Status (s : EBlockChainStatus) | Missing.
Definition AddCompactBlock (fuel : nat) (now : Z) (c : CompactBlock) (n : node pool) : option (outcome compact_status) * node pool :=
  if on_chain (confirmed_now pool n) (h_height (cb_header c)) (BlockHeader_GetHash (cb_header c)) then (Some (Ret (Status ALREADY_EXISTS)), n) else
  match Hydrate c (memPool (n_pool pool n)) with
  | None => (Some (Ret Missing), n)
  | Some b =>
    match ProcessBlock fuel now b n with
    | (Some (Ret INVALID), n') => (Some (Ret Missing), n')
    | (Some (Ret s), n') => (Some (Ret (Status s)), n')
    | (Some Throw, n') => (Some (Ret Missing), n')
    | (Some Fault, n') => (Some Fault, n')
    | (None, n') => (None, n')
    end
  end.

(** What the node sends next (src/P2P/MessageProcessor.cpp:268-297). *)
Inductive answer := ToAll (h : BlockHeader) | AskBlock (hash : bytes) | AskCompact (hash : bytes).
Definition answer_to (c : CompactBlock) (r : compact_status) (n' : node pool) : list answer :=
  match r with
  | Status SUCCESS => [ToAll (cb_header c)]
  | Missing => [AskBlock (BlockHeader_GetHash (cb_header c))]
  | Status ORPHANED =>
    let height := sub64 (nlen (confirmed_now pool n')) 1 in
    if (h_height (cb_header c) <? add64 height 100) && (confirmed_difficulty pool n' <? h_totalDifficulty (cb_header c))
    then [AskCompact (h_previousBlockHash (cb_header c))] else []
  | Status _ => []
  end.
End Compact.
