(** Model of block processing: src/BlockChain/Processors/BlockProcessor.cpp, the orphan blocks of
    src/BlockChain/OrphanPool/OrphanPool.cpp, and Commit, Rollback and Create of src/BlockChain/ChainState.cpp over all stores. *)
From Verif Require Import Base Bytes CodecModel ConsensusModel CuckooModel CacheModel HeaderModel ValidationModel UtxoModel.
Local Open Scope N_scope.

Section Block.
(** The transaction pool (PoolModel.v); src/TxPool/TransactionPoolImpl.cpp:113-123 ReconcileBlock, which is given the database and the
    output set as they are in the middle of the batch and the header of the last block committed, and may throw. *)
Variable pool : Type.
Variable empty_pool : pool.
Variable ReconcileBlock : blockdb -> txhashset -> BlockHeader -> FullBlock -> pool -> outcome unit * pool.
Variable Blake2b : bytes -> bytes.
Variable BAD_BLOCKS : bytes -> bool.
Variable env : Environment.
Variable pow_keys : BlockHeader -> sip.
(** Block validation (ValidationModel.v): BlockValidator::VerifySelfConsistent and KernelSumValidator::ValidateKernelSums of a block. *)
Variable verify_self_consistent : FullBlock -> outcome unit.
Variable validate_block_sums : BlockSums -> FullBlock -> outcome BlockSums.

(** src/BlockChain/ChainState.h:75-86. [n_chain]: both chains, headers, header MMR and orphan headers (HeaderModel.v). [n_db]: the
    other tables of the database (its header table is not used; see [view]). [n_set]: the output set, null while it is replaced;
    its committed version is what its files hold, m_pBlockHeaderBackup included. [n_orphans]: the orphan blocks, in the order they came
    (m_orphansByHeight; a block is found by height and hash, so only the order within one height matters). *)
Record node := mkNode {
  n_chain : cstate; n_db : versions blockdb; n_set : versions (option txhashset); n_orphans : list FullBlock; n_pool : pool }.
Definition set_chain n c := mkNode c (n_db n) (n_set n) (n_orphans n) (n_pool n).
Definition set_bdb n d := mkNode (n_chain n) (set_now (n_db n) d) (n_set n) (n_orphans n) (n_pool n).
Definition set_set n s := mkNode (n_chain n) (n_db n) (set_now (n_set n) s) (n_orphans n) (n_pool n).
Definition set_blocks n o := mkNode (n_chain n) (n_db n) (n_set n) o (n_pool n).
Definition set_pool n p := mkNode (n_chain n) (n_db n) (n_set n) (n_orphans n) p.
(** The database as a call sees it: uncommitted writes included. *)
Definition view (n : node) : blockdb :=
  let d := now_ (n_db n) in mkDB (d_blocks d) (now_ (s_db (n_chain n))) (d_sums d) (d_positions d) (d_spent d).

(** A call: [None] if a loop did not finish within the given number of turns. *)
Definition B (A : Type) := node -> option (outcome A) * node.
Definition bret {A} (x : A) : B A := fun n => (Some (Ret x), n).
Definition bthrow {A} : B A := fun n => (Some Throw, n).
Definition bbind {A C} (m : B A) (k : A -> B C) : B C :=
  fun n => match m n with
           | (Some (Ret x), n') => k x n'
           | (Some Throw, n') => (Some Throw, n')
           | (Some Fault, n') => (Some Fault, n')
           | (None, n') => (None, n')
           end.
Definition blift {A} (o : option (outcome A)) : B A := fun n => (o, n).
Definition bget : B node := fun n => (Some (Ret n), n).
Definition bput (n : node) : B unit := fun _ => (Some (Ret tt), n).
Notation "'run' x <- m ; k" := (bbind m (fun x => k)) (at level 60, x pattern, m at level 50, k at level 60, right associativity).

(** ChainState.cpp:222-243 Commit; 245-266 Rollback, and the end of a batch (Lockable.h:102-124). The stores are committed one after
    the other; a crash in between is not modelled here. *)
Definition commit_all (n : node) : node :=
  mkNode (snd (State_Commit (n_chain n))) (keep (n_db n)) (keep (n_set n)) (n_orphans n) (n_pool n).
Definition rollback_all (n : node) : node :=
  mkNode (end_writer (n_chain n)) (drop (n_db n)) (drop (n_set n)) (n_orphans n) (n_pool n).
Definition in_batch {A} (m : B A) : B A := fun n => let '(r, n') := m n in (r, rollback_all n').

(** OrphanPool.cpp:8-23, 25-49, 51-66, 85-104. *)
Definition is_block (height : N) (hash : bytes) (b : FullBlock) : bool :=
  ((h_height (fb_header b) =? height) && bytes_eqb (BlockHeader_GetHash (fb_header b)) hash)%bool.
Definition IsOrphan (height : N) (hash : bytes) (o : list FullBlock) : bool := existsb (is_block height hash) o.
Definition GetOrphanBlock (height : N) (hash : bytes) (o : list FullBlock) : option FullBlock := find (is_block height hash) o.
Definition AddOrphanBlock (b : FullBlock) : B unit :=
  run n <- bget;
  let h := fb_header b in
  run _ <- (if Cached bytes_eqb (s_orphans (n_chain n)) (BlockHeader_GetHash h) then bret tt
            else match Put bytes_eqb LRU (s_orphans (n_chain n)) (BlockHeader_GetHash h) h with
                 | Ret c => bput (set_chain n (set_orphans (n_chain n) c))
                 | Throw => bthrow
                 | Fault => blift (Some Fault)
                 end);
  run n <- bget;
  if IsOrphan (h_height h) (BlockHeader_GetHash h) (n_orphans n) then bret tt else bput (set_blocks n (n_orphans n ++ [b])).
Fixpoint RemoveOrphan (height : N) (hash : bytes) (o : list FullBlock) : list FullBlock :=
  match o with [] => [] | b :: o' => if is_block height hash b then o' else b :: RemoveOrphan height hash o' end.

(** The confirmed chain (HeaderModel.v has the candidate chain): Chain::AddBlock and Chain::Rewind, src/BlockChain/Chain.cpp:59-97. *)
Definition confirmed_now (n : node) : list bytes := now_ (s_confirmed (n_chain n)).
Definition set_confirmed (n : node) (l : list bytes) : node :=
  let c := n_chain n in
  set_chain n (mkState (set_now (s_confirmed c) l) (s_candidate c) (s_db c) (s_mmr c) (mmr_dirty c) (s_orphans c)).
Definition Confirmed_AddBlock (b : FullBlock) : B unit :=
  run n <- bget;
  if h_height (fb_header b) =? N.of_nat (length (confirmed_now n))
  then bput (set_confirmed n (confirmed_now n ++ [BlockHeader_GetHash (fb_header b)])) else bthrow.
Definition Confirmed_Rewind (lastHeight : N) : B unit :=
  run n <- bget;
  if lastHeight <? N.of_nat (length (confirmed_now n))
  then bput (set_confirmed n (firstn (N.to_nat (lastHeight + 1)) (confirmed_now n))) else bthrow.

(** BlockDBImpl.cpp:202-209 AddBlock; 226-232 AddBlockSums. *)
Definition db_AddBlock (b : FullBlock) (d : blockdb) : blockdb :=
  mkDB (tput (d_blocks d) (BlockHeader_GetHash (fb_header b)) b) (d_headers d) (d_sums d) (d_positions d) (d_spent d).
Definition db_AddBlockSums (hash : bytes) (s : BlockSums) (d : blockdb) : blockdb :=
  mkDB (d_blocks d) (d_headers d) (tput (d_sums d) hash s) (d_positions d) (d_spent d).

(** BlockProcessor.cpp:184-225: ValidateAndAddBlock. When ApplyBlock fails half-way, what it wrote is left out here: every caller then
    leaves the batch, which rolls it back. *)
Definition ValidateAndAddBlock (b : FullBlock) : B unit :=
  run n <- bget;
  match tget (d_headers (view n)) (h_previousBlockHash (fb_header b)), now_ (n_set n) with
  | None, _ => bthrow
  | Some _, None => bthrow
  | Some _, Some s =>
    run r <- blift (Some (ApplyBlock Blake2b env (view n) b s));
    match r with
    | None => bthrow
    | Some (s1, d1) =>
      run _ <- bput (set_bdb (set_set n (Some s1)) d1);
      run _ <- blift (Some (verify_self_consistent b));
      run ok <- blift (Some (ValidateRoots Blake2b s1 (fb_header b)));
      if negb ok then bthrow else
      match tget (d_sums d1) (h_previousBlockHash (fb_header b)) with
      | None => bthrow
      | Some previousSums =>
        run sums <- blift (Some (validate_block_sums previousSums b));
        let hash := BlockHeader_GetHash (fb_header b) in
        run n <- bget;
        run _ <- bput (set_blocks (set_bdb n (db_AddBlock b (db_AddBlockSums hash sums (now_ (n_db n)))))
                                  (RemoveOrphan (h_height (fb_header b)) hash (n_orphans n)));
        run n <- bget;
        let '(r, p) := ReconcileBlock (view n) s1 (match committed (n_set n) with Some s => m_pBlockHeader s | None => m_pBlockHeader s1 end) b (n_pool n) in
        run _ <- bput (set_pool n p);
        blift (Some r)
      end
    end
  end.

(** BlockProcessor.cpp:86-130: DetermineBlockStatus; the loop with at most [fuel] turns. [blocks] is built in front, which is the vector
    after std::reverse. *)
Inductive EBlockStatus := ORPHAN | NEXT_BLOCK | REORG (reorgBlocks : list FullBlock).
Fixpoint fork (fuel : nat) (n : node) (b : FullBlock) (blocks : list FullBlock) : option EBlockStatus :=
  let height := sub64 (h_height (fb_header b)) 1 in
  let previousHash := h_previousBlockHash (fb_header b) in
  if on_chain (confirmed_now n) height previousHash then Some (REORG blocks) else
  match fuel with
  | O => None
  | S fuel' =>
    match GetOrphanBlock height previousHash (n_orphans n) with
    | Some f => fork fuel' n f (f :: blocks)
    | None =>
      match tget (d_blocks (view n)) previousHash with
      | Some f => fork fuel' n f (f :: blocks)
      | None => Some ORPHAN
      end
    end
  end.
Definition DetermineBlockStatus (fuel : nat) (n : node) (b : FullBlock) : option EBlockStatus :=
  match tget (d_headers (view n)) (BlockHeader_GetHash (fb_header b)) with
  | None => Some ORPHAN
  | Some _ =>
    if bytes_eqb (tip_hash (confirmed_now n)) (h_previousBlockHash (fb_header b)) then Some NEXT_BLOCK
    else fork fuel n b [b]
  end.

(** ChainState.cpp:97-106: GetTotalDifficulty(CONFIRMED). *)
Definition confirmed_difficulty (n : node) : N :=
  match tget (d_headers (view n)) (tip_hash (confirmed_now n)) with Some h => h_totalDifficulty h | None => 0 end.
Fixpoint each (f : FullBlock -> B unit) (l : list FullBlock) : B unit :=
  match l with [] => bret tt | b :: l' => run _ <- f b; each f l' end.

(** BlockProcessor.cpp:132-182: HandleReorg. *)
Definition HandleReorg (fuel : nat) (reorgBlocks : list FullBlock) : B unit :=
  run n <- bget;
  let totalDifficulty := confirmed_difficulty n in
  match now_ (n_set n), reorgBlocks with
  | None, _ => bthrow
  | Some _, [] => blift (Some Fault)
  | Some s, front :: rest =>
    match tget (d_headers (view n)) (h_previousBlockHash (fb_header front)) with
    | None => bthrow
    | Some commonHeader =>
      run sd <- blift (Rewind fuel commonHeader s (view n));
      run _ <- bput (set_bdb (set_set n (Some (fst sd))) (snd sd));
      run _ <- each ValidateAndAddBlock (front :: rest);
      if totalDifficulty <? h_totalDifficulty (fb_header (last (front :: rest) front)) then
        run _ <- Confirmed_Rewind (sub64 (h_height (fb_header front)) 1);
        run _ <- each Confirmed_AddBlock (front :: rest);
        run n <- bget;
        bput (commit_all n)
      else
        run n <- bget;
        let n := rollback_all n in
        let n := set_bdb n (fold_left (fun d b => db_AddBlock b d) (front :: rest) (now_ (n_db n))) in
        bput (mkNode (n_chain n) (keep (n_db n)) (n_set n) (n_orphans n) (n_pool n))
    end
  end.

(** BlockProcessor.cpp:41-84: ProcessBlockInternal. *)
Definition ProcessBlockInternal (fuel : nat) (b : FullBlock) : B EBlockChainStatus :=
  in_batch (
    run n <- bget;
    let hash := BlockHeader_GetHash (fb_header b) in
    if on_chain (confirmed_now n) (h_height (fb_header b)) hash then bret ALREADY_EXISTS else
    match tget (d_blocks (view n)) hash with
    | Some _ => bret ALREADY_EXISTS
    | None =>
      match DetermineBlockStatus fuel n b with
      | None => blift None
      | Some ORPHAN =>
        if IsOrphan (h_height (fb_header b)) hash (n_orphans n) then bret ALREADY_EXISTS else
        run _ <- AddOrphanBlock b; bret ORPHANED
      | Some (REORG blocks) => run _ <- HandleReorg fuel blocks; bret SUCCESS
      | Some NEXT_BLOCK =>
        run _ <- ValidateAndAddBlock b;
        run _ <- Confirmed_AddBlock b;
        run n <- bget;
        run _ <- bput (commit_all n);
        bret SUCCESS
      end
    end).

(** BlockProcessor.cpp:17-39: ProcessBlock. Chain::GetHeight is the number of entries less one. *)
Definition ProcessBlock (fuel : nat) (now : Z) (b : FullBlock) : B EBlockChainStatus :=
  run n <- bget;
  let candidateHeight := sub64 (N.of_nat (length (now_ (s_candidate (n_chain n))))) 1 in
  if h_height (fb_header b) <=? GetHorizonHeight candidateHeight then bthrow else
  run _ <- (fun n => match ProcessSingleHeader Blake2b BAD_BLOCKS env pow_keys fuel now (fb_header b) (n_chain n) with
                     | Some (r, c) => (Some r, set_chain n c)
                     | None => (None, n)
                     end);
  run _ <- blift (Some (verify_self_consistent b));
  ProcessBlockInternal fuel b.

(** src/BlockChain/BlockChainImpl.cpp:386-419: ProcessNextOrphanBlock. [true] if a block was added. *)
Definition ProcessNextOrphanBlock (fuel : nat) (now : Z) : B bool :=
  run n <- bget;
  let height := N.of_nat (length (confirmed_now n)) in
  match nth_error (now_ (s_candidate (n_chain n))) (N.to_nat height) with
  | None => bret false
  | Some hash =>
    match tget (d_headers (view n)) hash with
    | None => bret false
    | Some next =>
      match GetOrphanBlock height (BlockHeader_GetHash next) (n_orphans n) with
      | None => bret false
      | Some b =>
        fun n => match ProcessBlock fuel now b n with
                 | (Some (Ret SUCCESS), n') => (Some (Ret true), n')
                 | (Some (Ret _), n') => (Some (Ret false), n')
                 | (Some Throw, n') => (Some (Ret false), set_blocks n' (RemoveOrphan (h_height next) (BlockHeader_GetHash next) (n_orphans n')))
                 | (Some Fault, n') => (Some Fault, n')
                 | (None, n') => (None, n')
                 end
      end
    end
  end.

(** ChainState.cpp:197-220: GetBlocksNeeded, from the height after the last common block on. *)
Fixpoint needed (maxNumBlocks : nat) (o : list FullBlock) (height : N) (candidate : list bytes) : list (N * bytes) :=
  match candidate with
  | [] => []
  | hash :: rest =>
    if IsOrphan height hash o then needed maxNumBlocks o (height + 1) rest else
    match maxNumBlocks with
    | O | 1%nat => [(height, hash)]
    | S m => (height, hash) :: needed m o (height + 1) rest
    end
  end.
(** src/BlockChain/ChainStore.cpp:70-87: FindCommonIndex, from height [k] downwards. Both chains start with the genesis block. *)
Fixpoint common (a b : list bytes) (k : nat) : nat :=
  if bytes_eqb (nth k a []) (nth k b []) then k else match k with S k' => common a b k' | O => O end.
Definition GetBlocksNeeded (maxNumBlocks : nat) (n : node) : list (N * bytes) :=
  let a := now_ (s_candidate (n_chain n)) in
  let next := S (common a (confirmed_now n) (Nat.min (length a) (length (confirmed_now n)) - 1)) in
  needed maxNumBlocks (n_orphans n) (N.of_nat next) (skipn next a).

(** ChainState.cpp:38-69: Create. The first start of the program, on an empty directory, and every later one: the committed files are
    opened, the header of the set is that of the confirmed tip, the orphan pool and the transaction pool are empty. A header that is
    missing would be dereferenced later. *)
Definition restart (genesis : FullBlock) (genesis_sums : BlockSums) (n : node) : outcome node :=
  let n := rollback_all n in
  match Create Blake2b (fb_header genesis) (n_chain n) with
  | (Ret _, c) =>
    let d := committed (n_db n) in
    let d := if (length (now_ (s_candidate (n_chain n))) =? 1)%nat
             then db_AddBlockSums (BlockHeader_GetHash (fb_header genesis)) genesis_sums d else d in
    match tget (now_ (s_db c)) (tip_hash (now_ (s_confirmed c))), committed (n_set n) with
    | Some h, Some s =>
      let s := Some (mkSet (m_pKernelMMR s) (m_pOutputPMMR s) (m_pRangeProofPMMR s) h) in
      Ret (mkNode c (mkVer d d) (mkVer s s) [] empty_pool)
    | _, _ => Fault
    end
  | (Throw, _) => Throw
  | (Fault, _) => Fault
  end.
Definition first_start (genesis : FullBlock) (genesis_sums : BlockSums) : outcome node :=
  let* s := Open_fresh Blake2b genesis in
  let d := mkDB [] [] [] [] [] in
  restart genesis genesis_sums (mkNode (fresh (fb_header genesis)) (mkVer d d) (mkVer (Some s) (Some s)) [] empty_pool).

(** What the node is given. *)
(** [EInternal] is the second half of ProcessBlock: other threads may come between the halves (each half
    holds the lock of the chain state from start to end). *)
Inductive bevent := EHeader (now : Z) (h : BlockHeader) | EHeaders (now : Z) (hs : list BlockHeader) | EBlock (now : Z) (b : FullBlock)
  | EInternal (b : FullBlock) | ENextOrphan (now : Z) | ERestart.
(** The result of a call is a status, an exception, or undefined behaviour; [None] if a loop does not finish or the program does not
    start again. *)
Definition bhandle (fuel : nat) (genesis : FullBlock) (genesis_sums : BlockSums) (e : bevent) (n : node) : option (outcome EBlockChainStatus) * node :=
  match e with
  | EHeader now h =>
    match ProcessSingleHeader Blake2b BAD_BLOCKS env pow_keys fuel now h (n_chain n) with
    | Some (r, c) => (Some r, set_chain n c)
    | None => (None, n)
    end
  | EHeaders now hs => let '(r, c) := ProcessSyncHeaders Blake2b BAD_BLOCKS env pow_keys now hs (n_chain n) in (Some r, set_chain n c)
  | EBlock now b => ProcessBlock fuel now b n
  | EInternal b => ProcessBlockInternal fuel b n
  | ENextOrphan now =>
    match ProcessNextOrphanBlock fuel now n with
    | (Some (Ret b), n') => (Some (Ret (if b then SUCCESS else INVALID)), n')
    | (Some Throw, n') => (Some Throw, n')
    | (Some Fault, n') => (Some Fault, n')
    | (None, n') => (None, n')
    end
  | ERestart => match restart genesis genesis_sums n with Ret n' => (Some (Ret SUCCESS), n') | _ => (None, n) end
  end.
Fixpoint bhandle_all (fuel : nat) (genesis : FullBlock) (genesis_sums : BlockSums) (es : list bevent) (n : node) : option (list (outcome EBlockChainStatus) * node) :=
  match es with
  | [] => Some ([], n)
  | e :: es' =>
    match bhandle fuel genesis genesis_sums e n with
    | (Some Fault, _) | (None, _) => None
    | (Some r, n') => match bhandle_all fuel genesis genesis_sums es' n' with Some (rs, n2) => Some (r :: rs, n2) | None => None end
    end
  end.
End Block.
