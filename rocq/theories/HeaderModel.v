(** Model of header processing: src/BlockChain/Processors/BlockHeaderProcessor.cpp, the header part of
    src/BlockChain/ChainState.cpp and of src/BlockChain/OrphanPool/OrphanPool.cpp, and the batch rules of
    include/Core/Traits/Lockable.h. *)
From Verif Require Import Base Bytes MMRIndexModel MMRHashModel CodecModel ConsensusModel CuckooModel DifficultyModel CacheModel.
Local Open Scope N_scope.

(** A store with a current and a committed version (Batchable.h:7-30). Chains are lists of block hashes: C16
    proves that the chain store behaves like these lists. The database's header table is the list of all
    entries written, newest first; a read finds the newest (the header cache of BlockDBImpl.cpp:148-163 returns
    the same, unless two headers with one hash are written). The header MMR is the list of its hashes, as in
    [MMRHashModel]; [dirty] is HeaderMMR's flag. *)
Record versions A := mkVer { now_ : A; committed : A }.
Arguments mkVer {A}. Arguments now_ {A}. Arguments committed {A}.
Record cstate := mkState {
  s_confirmed : versions (list bytes);
  s_candidate : versions (list bytes);
  s_db : versions (list (bytes * BlockHeader));
  s_mmr : versions (list bytes);
  mmr_dirty : bool;
  s_orphans : cache bytes BlockHeader
}.
Definition set_candidate (s : cstate) (v : versions (list bytes)) : cstate :=
  mkState (s_confirmed s) v (s_db s) (s_mmr s) (mmr_dirty s) (s_orphans s).
Definition set_db (s : cstate) (v : versions (list (bytes * BlockHeader))) : cstate :=
  mkState (s_confirmed s) (s_candidate s) v (s_mmr s) (mmr_dirty s) (s_orphans s).
Definition set_mmr (s : cstate) (v : versions (list bytes)) (dirty : bool) : cstate :=
  mkState (s_confirmed s) (s_candidate s) (s_db s) v dirty (s_orphans s).
Definition set_orphans (s : cstate) (c : cache bytes BlockHeader) : cstate :=
  mkState (s_confirmed s) (s_candidate s) (s_db s) (s_mmr s) (mmr_dirty s) c.
Definition set_now {A} (v : versions A) (x : A) : versions A := mkVer x (committed v).

(** A call that may throw part-way: its result and the state it leaves. *)
Definition M (A : Type) := cstate -> outcome A * cstate.
Definition ret {A} (x : A) : M A := fun s => (Ret x, s).
Definition throw {A} : M A := fun s => (Throw, s).
Definition fault {A} : M A := fun s => (Fault, s).
Definition bind {A B} (m : M A) (k : A -> M B) : M B :=
  fun s => match m s with (Ret x, s') => k x s' | (Throw, s') => (Throw, s') | (Fault, s') => (Fault, s') end.
Definition lift {A} (o : outcome A) : M A := fun s => (o, s).
Definition get : M cstate := fun s => (Ret s, s).
Definition put (s : cstate) : M unit := fun _ => (Ret tt, s).
Notation "'do' x <- m ; k" := (bind m (fun x => k)) (at level 60, x pattern, m at level 50, k at level 60, right associativity).

Inductive EBlockChainStatus := SUCCESS | ALREADY_EXISTS | ORPHANED | INVALID.

(** src/Database/BlockDBImpl.cpp:148-163: GetBlockHeader. *)
Fixpoint db_find (l : list (bytes * BlockHeader)) (hash : bytes) : option BlockHeader :=
  match l with [] => None | (k, h) :: l' => if bytes_eqb k hash then Some h else db_find l' hash end.
Definition GetBlockHeader (s : cstate) (hash : bytes) : option BlockHeader := db_find (now_ (s_db s)) hash.
(** src/Database/BlockDBImpl.cpp:165-182: AddBlockHeader. *)
Definition AddBlockHeader (h : BlockHeader) : M unit :=
  do s <- get; put (set_db s (set_now (s_db s) ((BlockHeader_GetHash h, h) :: now_ (s_db s)))).

(** Chain::GetTipHash, IsOnChain, AddBlock, Rewind (include/BlockChain/Chain.h:27-47, src/BlockChain/Chain.cpp)
    on the candidate chain. *)
Definition tip_hash (l : list bytes) : bytes := last l [].
Definition on_chain (l : list bytes) (height : N) (hash : bytes) : bool :=
  match nth_error l (N.to_nat height) with Some x => bytes_eqb x hash | None => false end.
Definition Chain_AddBlock (hash : bytes) (height : N) : M unit :=
  do s <- get;
  if height =? N.of_nat (length (now_ (s_candidate s)))
  then put (set_candidate s (set_now (s_candidate s) (now_ (s_candidate s) ++ [hash]))) else throw.
Definition Chain_Rewind (lastHeight : N) : M unit :=
  do s <- get;
  if lastHeight <? N.of_nat (length (now_ (s_candidate s)))
  then put (set_candidate s (set_now (s_candidate s) (firstn (N.to_nat (lastHeight + 1)) (now_ (s_candidate s)))))
  else throw.
Definition Chain_Rollback : M unit :=
  do s <- get; put (set_candidate s (set_now (s_candidate s) (committed (s_candidate s)))).

Section Header.
Variable Blake2b : bytes -> bytes.
(** include/BlockChain/BadBlocks.h:6: the hashes refused outright. *)
Variable BAD_BLOCKS : bytes -> bool.
Variable env : Environment.
(** The siphash keys of a header (Blake2b of its serialization without proof). *)
Variable pow_keys : BlockHeader -> sip.

(** src/PMMR/HeaderMMRImpl.cpp:54-72: AddHeader. *)
Definition header_leaf (h : BlockHeader) : bytes :=
  SerializeCycle (m_edgeBits (h_proofOfWork h)) (m_proofNonces (h_proofOfWork h)).
Definition MMR_AddHeader (h : BlockHeader) : M unit :=
  do s <- get; do f <- lift (AddHashes Blake2b (now_ (s_mmr s)) (header_leaf h));
  put (set_mmr s (set_now (s_mmr s) f) true).
(** src/PMMR/HeaderMMRImpl.cpp:43-52: Rewind. *)
Definition MMR_Rewind (size : N) : M unit :=
  do s <- get;
  if lidx_position (LeafIndex_At size) =? GetSize (now_ (s_mmr s)) then ret tt else
  do f <- lift (RewindHashes (now_ (s_mmr s)) size);
  put (set_mmr s (set_now (s_mmr s) f) true).
(** src/PMMR/HeaderMMRImpl.cpp:33-41: Rollback; 22-31: Commit. *)
Definition MMR_Rollback : M unit :=
  do s <- get;
  if mmr_dirty s then put (set_mmr s (set_now (s_mmr s) (committed (s_mmr s))) false) else ret tt.
Definition mmr_commit (s : cstate) : cstate :=
  if mmr_dirty s then set_mmr s (mkVer (now_ (s_mmr s)) (now_ (s_mmr s))) false else s.

(** src/BlockChain/ChainState.cpp:222-243: Commit of all stores (the output set is not touched by header
    processing). *)
Definition keep {A} (v : versions A) : versions A := mkVer (now_ v) (now_ v).
Definition drop {A} (v : versions A) : versions A := mkVer (committed v) (committed v).
Definition State_Commit : M unit :=
  do s <- get;
  put (mmr_commit (mkState (keep (s_confirmed s)) (keep (s_candidate s)) (keep (s_db s)) (s_mmr s) (mmr_dirty s) (s_orphans s))).
(** include/Core/Traits/Lockable.h:102-124 and ChainState.cpp:245-290: when the batch writer goes out of scope
    every store is rolled back to its committed version (nested writers included), whether an exception
    is in flight or not. The orphan pool is not a batch store. *)
Definition end_writer (s : cstate) : cstate :=
  mkState (drop (s_confirmed s)) (drop (s_candidate s)) (drop (s_db s)) (drop (s_mmr s)) false (s_orphans s).
Definition batch {A} (m : M A) : M A := fun s => let '(r, s') := m s in (r, end_writer s').

(** src/BlockChain/OrphanPool/OrphanPool.cpp:103-111: GetOrphanHeader; 113-116: AddOrphanHeader. *)
Definition GetOrphanHeader (c : cache bytes BlockHeader) (hash : bytes) : outcome (option BlockHeader * cache bytes BlockHeader) :=
  if Cached bytes_eqb c hash then let* vc := Get bytes_eqb LRU c hash in Ret (Some (fst vc), snd vc) else Ret (None, c).
Definition AddOrphanHeader (h : BlockHeader) : M unit :=
  do s <- get; do c <- lift (Put bytes_eqb LRU (s_orphans s) (BlockHeader_GetHash h) h); put (set_orphans s c).

(** src/BlockChain/ChainState.cpp:97-106: GetTotalDifficulty(CANDIDATE). *)
Definition GetTotalDifficulty (s : cstate) : N :=
  match GetBlockHeader s (tip_hash (now_ (s_candidate s))) with Some h => h_totalDifficulty h | None => 0 end.

(** src/BlockChain/Validators/BlockHeaderValidator.cpp:11-46, with the stores of the state. *)
Definition Validate_ (now : Z) (h prev : BlockHeader) : M unit :=
  do s <- get; lift (ValidateHeader (GetBlockHeader s) env pow_keys (HeaderRoot Blake2b (now_ (s_mmr s))) now h prev).

(** BlockHeaderProcessor.cpp:238-246: the loop of ValidateHeaders. *)
Fixpoint validate_loop (now : Z) (pPreviousHeader : BlockHeader) (headers : list BlockHeader) : M unit :=
  match headers with
  | [] => ret tt
  | pHeader :: rest =>
    do _ <- Validate_ now pHeader pPreviousHeader;
    do _ <- MMR_AddHeader pHeader;
    do _ <- AddBlockHeader pHeader;
    do _ <- Chain_AddBlock (BlockHeader_GetHash pHeader) (h_height pHeader);
    validate_loop now pHeader rest
  end.
(** BlockHeaderProcessor.cpp:224-247: ValidateHeaders. front() of an empty vector is undefined. *)
Definition ValidateHeaders (now : Z) (headers : list BlockHeader) : M unit :=
  match headers with
  | [] => fault
  | front :: _ =>
    do s <- get;
    match GetBlockHeader s (h_previousBlockHash front) with
    | None => throw
    | Some pPreviousHeader => validate_loop now pPreviousHeader headers
    end
  end.

(** BlockHeaderProcessor.cpp:71-84: the loop of ProcessOrphan. [None] when [fuel] turns were not enough. The
    result is [None] inside when the branch does not reach the chain. *)
Fixpoint collect (fuel : nat) (l : list bytes) (db : list (bytes * BlockHeader)) (c : cache bytes BlockHeader)
    (temp : BlockHeader) (reorgHeaders : list BlockHeader) : option (outcome (option (list BlockHeader) * cache bytes BlockHeader)) :=
  match fuel with
  | O => None
  | S n =>
    if on_chain l (h_height temp) (BlockHeader_GetHash temp) then Some (Ret (Some reorgHeaders, c)) else
    let previousHash := h_previousBlockHash temp in
    match GetOrphanHeader c previousHash with
    | Ret (Some t, c1) => collect n l db c1 t (temp :: reorgHeaders)
    | Ret (None, c1) =>
      match db_find db previousHash with
      | Some t => collect n l db c1 t (temp :: reorgHeaders)
      | None => Some (Ret (None, c1))
      end
    | Throw => Some Throw
    | Fault => Some Fault
    end
  end.

(** BlockHeaderProcessor.cpp:60-109: ProcessOrphan, after the loop. [reorgHeaders] is built in front, which is
    the vector after std::reverse. *)
Definition finish_orphan (now : Z) (totalDifficulty : N) (pHeader : BlockHeader) (reorg : option (list BlockHeader)) : M EBlockChainStatus :=
  match reorg with
  | None => do _ <- AddOrphanHeader pHeader; ret ORPHANED
  | Some [] => fault
  | Some (front :: rest) =>
    do _ <- Chain_Rewind (sub64 (h_height front) 1);
    do _ <- MMR_Rewind (h_height front);
    do _ <- ValidateHeaders now (front :: rest);
    do _ <- (if h_totalDifficulty pHeader <=? totalDifficulty then do _ <- MMR_Rollback; Chain_Rollback else ret tt);
    do _ <- State_Commit;
    ret SUCCESS
  end.

(** BlockHeaderProcessor.cpp:15-58: ProcessSingleHeader. [None]: not finished within [fuel] turns of the loop.
    Dereferencing the null header of a tip that is not in the database is undefined. *)
Definition ProcessSingleHeader (fuel : nat) (now : Z) (pHeader : BlockHeader) (s : cstate) : option (outcome EBlockChainStatus * cstate) :=
  let hash := BlockHeader_GetHash pHeader in
  if BAD_BLOCKS hash then Some (Ret INVALID, s) else
  match GetBlockHeader s hash with
  | Some _ => Some (Ret ALREADY_EXISTS, end_writer s)
  | None =>
    let tip := tip_hash (now_ (s_candidate s)) in
    if negb (bytes_eqb tip (h_previousBlockHash pHeader)) then
      match collect fuel (now_ (s_candidate s)) (now_ (s_db s)) (s_orphans s) pHeader [] with
      | None => None
      | Some (Ret (reorg, c)) => Some (batch (finish_orphan now (GetTotalDifficulty s) pHeader reorg) (set_orphans s c))
      | Some Throw => Some (Throw, end_writer s)
      | Some Fault => Some (Fault, end_writer s)
      end
    else
      Some (batch (match GetBlockHeader s tip with
                   | None => fault
                   | Some prev =>
                     do _ <- Validate_ now pHeader prev;
                     do _ <- AddBlockHeader pHeader;
                     do _ <- MMR_AddHeader pHeader;
                     do _ <- Chain_AddBlock hash (h_height pHeader);
                     do _ <- State_Commit;
                     ret SUCCESS
                   end) s)
  end.

(** BlockHeaderProcessor.cpp:166-173: drops the headers at the start that are on the candidate chain. *)
Fixpoint skip_known (l : list bytes) (headers : list BlockHeader) : list BlockHeader :=
  match headers with
  | [] => []
  | h :: rest => if on_chain l (h_height h) (BlockHeader_GetHash h) then skip_known l rest else headers
  end.
(** BlockHeaderProcessor.cpp:154-214: ProcessChunkedSyncHeaders with PrepareSyncChain. *)
Definition ProcessChunkedSyncHeaders (now : Z) (headers : list BlockHeader) : M EBlockChainStatus :=
  batch (
    do s <- get;
    match headers with
    | [] => fault
    | first :: _ =>
      let totalDifficulty := GetTotalDifficulty s in
      if negb (on_chain (now_ (s_candidate s)) (sub64 (h_height first) 1) (h_previousBlockHash first)) then throw else
      match skip_known (now_ (s_candidate s)) headers with
      | [] => ret ALREADY_EXISTS
      | front :: rest =>
        do _ <- Chain_Rewind (sub64 (h_height front) 1);
        do _ <- MMR_Rewind (h_height front);
        do _ <- ValidateHeaders now (front :: rest);
        do _ <- (if h_totalDifficulty (last (front :: rest) front) <=? totalDifficulty
                 then do _ <- MMR_Rollback; Chain_Rollback else ret tt);
        do _ <- State_Commit;
        ret SUCCESS
      end
    end).

(** BlockHeaderProcessor.cpp:13, 138-149: the headers are processed in chunks of 128; [chunk] is the vector
    being filled, in reverse order, [room] the number of headers it still takes. *)
Definition SYNC_BATCH_SIZE : nat := 128.
Fixpoint chunks (now : Z) (room : nat) (chunk : list BlockHeader) (headers : list BlockHeader) : M EBlockChainStatus :=
  match headers with
  | [] => match chunk with
          | [] => ret SUCCESS
          | _ => do status <- ProcessChunkedSyncHeaders now (rev chunk); 
                 ret (match status with ALREADY_EXISTS => SUCCESS | x => x end)
          end
  | h :: rest =>
    match room with
    | O | 1%nat =>
      do status <- ProcessChunkedSyncHeaders now (rev (h :: chunk));
      match status with
      | SUCCESS | ALREADY_EXISTS => chunks now SYNC_BATCH_SIZE [] rest
      | x => ret x
      end
    | S room' => chunks now room' (h :: chunk) rest
    end
  end.
(** BlockHeaderProcessor.cpp:128-132. *)
Fixpoint heights_consecutive (headers : list BlockHeader) : bool :=
  match headers with
  | h1 :: ((h2 :: _) as rest) => ((h_height h2 =? add64 (h_height h1) 1) && heights_consecutive rest)%bool
  | _ => true
  end.
(** BlockHeaderProcessor.cpp:111-152: ProcessSyncHeaders. *)
Definition ProcessSyncHeaders (now : Z) (headers : list BlockHeader) : M EBlockChainStatus :=
  match headers with
  | [] => ret SUCCESS
  | front :: _ =>
    if existsb (fun h => BAD_BLOCKS (BlockHeader_GetHash h)) headers then throw else
    if h_height front =? 0 then throw else
    if negb (heights_consecutive headers) then throw else
    chunks now SYNC_BATCH_SIZE [] headers
  end.

(** src/BlockChain/ChainState.cpp:38-69: Create, at every start of the program; non-batch writers commit when
    they go out of scope. The orphan pool starts empty (OrphanPool.cpp:3-6). Block sums are not modelled. *)
Definition Create (genesis : BlockHeader) : M unit :=
  do s0 <- get;
  do _ <- put (set_orphans (end_writer s0) (cache_new 64));
  do s <- get;
  if sub64 (N.of_nat (length (now_ (s_candidate s)))) 1 =? 0 then
    do _ <- AddBlockHeader genesis; do _ <- MMR_AddHeader genesis; State_Commit
  else ret tt.
(** The very first start: src/BlockChain/Chain.cpp Load with no file (both chains hold the genesis block), an
    empty database and MMR. *)
Definition fresh (genesis : BlockHeader) : cstate :=
  let l := mkVer [BlockHeader_GetHash genesis] [BlockHeader_GetHash genesis] in
  mkState l l (mkVer [] []) (mkVer [] []) false (cache_new 64).

(** What the node is given: a header, a batch of headers, or a restart. *)
Inductive event := Header (now : Z) (h : BlockHeader) | Headers (now : Z) (hs : list BlockHeader) | Restart.
(** [None]: the call does not finish within [fuel] turns of the loop, or the program fails to start; after
    undefined behaviour nothing more is said. *)
Definition handle (fuel : nat) (genesis : BlockHeader) (e : event) (s : cstate) : option (outcome EBlockChainStatus * cstate) :=
  match e with
  | Header now h => ProcessSingleHeader fuel now h s
  | Headers now hs => Some (ProcessSyncHeaders now hs s)
  | Restart => match Create genesis s with (Ret _, s') => Some (Ret SUCCESS, s') | _ => None end
  end.
Fixpoint handle_all (fuel : nat) (genesis : BlockHeader) (es : list event) (s : cstate) : option (list (outcome EBlockChainStatus) * cstate) :=
  match es with
  | [] => Some ([], s)
  | e :: es' =>
    match handle fuel genesis e s with
    | Some (Fault, _) | None => None
    | Some (r, s') => match handle_all fuel genesis es' s' with Some (rs, s2) => Some (r :: rs, s2) | None => None end
    end
  end.
Definition started (genesis : BlockHeader) : cstate := snd (Create genesis (fresh genesis)).
End Header.
