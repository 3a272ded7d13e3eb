(** Model of the transaction pools: src/TxPool/Pool.cpp, TransactionPoolImpl.cpp, ValidTransactionFinder.cpp, TxPoolEntry.h, and of the
    Dandelion monitor src/P2P/Dandelion.cpp. Every function of TransactionPool runs under its mutex, so each is one step. *)
From Verif Require Import Base Bytes CodecModel ConsensusModel ValidationModel UtxoModel.
Local Open Scope N_scope.

(** TransactionPtr: a shared pointer; two pointers are equal if the addresses are (Pool.cpp:174). *)
Record txptr := mkPtr { p_addr : N; p_tx : Transaction }.
(** include/TxPool/DandelionStatus.h:3-16. *)
Inductive EDandelionStatus := TO_STEM | STEMMED | TO_FLUFF | FLUFFED.
Definition status_eqb (a b : EDandelionStatus) : bool :=
  match a, b with TO_STEM, TO_STEM | STEMMED, STEMMED | TO_FLUFF, TO_FLUFF | FLUFFED, FLUFFED => true | _, _ => false end.
(** src/TxPool/TxPoolEntry.h:49-52. The timestamp is in seconds of the system clock. *)
Record entry := mkEntry { e_ptr : txptr; m_status : EDandelionStatus; m_timestamp : Z }.
Definition e_tx (e : entry) : Transaction := p_tx (e_ptr e).
(** src/TxPool/TransactionPoolImpl.h: m_memPool and m_stemPool (Pool.h: m_transactions). *)
Record txpool := mkPool { m_memPool : list entry; m_stemPool : list entry }.
(** include/TxPool/PoolType.h; include/TxPool/TransactionPool.h EAddTransactionStatus. *)
Inductive EPoolType := MEMPOOL | STEMPOOL.
Inductive EAddTransactionStatus := ADDED | DUPL_TX | LOW_FEE | TX_INVALID | NOT_ADDED.

Section Pool.
Variable Blake2b : bytes -> bytes.
Variable VerifyRangeProofs : list (bytes * bytes) -> bool.
Variable VerifyKernelSignatures : list bytes -> list bytes -> list bytes -> bool.
Variable AddCommitments : list bytes -> list bytes -> outcome bytes.
Variable CommitTransparent : N -> bytes.
Variable CommitBlinded : N -> bytes -> bytes.
Variable AddBlindingFactors : list bytes -> list bytes -> outcome bytes.
Variable env : Environment.
(** Config::GetFeeBase, GetStemProbability and GetEmbargoSeconds. *)
Variable fee_base : N.
Variable stemProbability : N.
Variable embargoSeconds : N.

(** TransactionValidator::Validate and TransactionUtil::Aggregate (ValidationModel.v). *)
Definition Validate (t : Transaction) (height : N) : outcome unit :=
  Transaction_Validate Blake2b VerifyRangeProofs VerifyKernelSignatures AddCommitments CommitTransparent CommitBlinded env t height.
Definition Aggregate_txs (ts : list Transaction) : outcome Transaction := Aggregate Blake2b AddBlindingFactors ts.
(** src/Core/Models/Transaction.cpp:67-78: the hash of the default (version 1) serialization. *)
Definition tx_hash (t : Transaction) : bytes := Blake2b (Transaction_Serialize 1 t).
(** include/Core/Models/Transaction.h:44-46. *)
Definition tx_eqb (a b : Transaction) : bool := bytes_eqb (tx_hash a) (tx_hash b).
(** include/Core/Models/TransactionKernel.h:45. *)
Definition kernel_eqb (a b : TransactionKernel) : bool := bytes_eqb (kernel_hash Blake2b a) (kernel_hash Blake2b b).

(** ** Pool.cpp *)
(** Pool.cpp:32-37. [std::time_t()] is a value-initialized integer: zero, not the current time. *)
Definition Pool_AddTransaction (p : list entry) (t : txptr) (status : EDandelionStatus) : list entry := p ++ [mkEntry t status 0%Z].
(** Pool.cpp:39-50. *)
Definition ContainsTransaction (p : list entry) (t : Transaction) : bool := existsb (fun e => tx_eqb (e_tx e) t) p.
(** Pool.cpp:72-86. *)
Definition Pool_FindByKernelHash (p : list entry) (h : bytes) : option txptr :=
  match find (fun e => existsb (fun k => bytes_eqb (kernel_hash Blake2b k) h) (b_kernels (t_body (e_tx e)))) p with
  | Some e => Some (e_ptr e)
  | None => None
  end.
(** Pool.cpp:88-100. *)
Definition FindTransactionsByStatus (p : list entry) (status : EDandelionStatus) : list txptr :=
  map e_ptr (filter (fun e => status_eqb (m_status e) status) p).
(** Pool.cpp:102-116. *)
Definition Pool_GetExpiredTransactions (p : list entry) (now : Z) (embargo : N) : list txptr :=
  map e_ptr (filter (fun e => (m_timestamp e <? now - Z.of_N embargo)%Z) p).
(** Pool.cpp:118-131: the first equal entry is erased. *)
Fixpoint RemoveTransaction (p : list entry) (t : Transaction) : list entry :=
  match p with
  | [] => []
  | e :: rest => if tx_eqb t (e_tx e) then rest else e :: RemoveTransaction rest t
  end.
(** Pool.cpp:183-204. *)
Definition ShouldEvict (t : Transaction) (b : FullBlock) : bool :=
  existsb (fun i => existsb (fun bi => input_eqb bi i) (b_inputs (fb_body b))) (b_inputs (t_body t)) ||
  existsb (fun k => existsb (fun bk => kernel_eqb bk k) (b_kernels (fb_body b))) (b_kernels (t_body t)).
(** Pool.cpp:168-181. *)
Definition ChangeStatus (p : list entry) (ts : list txptr) (status : EDandelionStatus) : list entry :=
  map (fun e => if existsb (fun t => p_addr (e_ptr e) =? p_addr t) ts then mkEntry (e_ptr e) status (m_timestamp e) else e) p.
(** Pool.cpp:206-222. *)
Definition Pool_Aggregate (p : list entry) : outcome (option Transaction) :=
  match p with
  | [] => Ret None
  | _ => let* t := Aggregate_txs (map e_tx p) in Ret (Some t)
  end.

(** ** ValidTransactionFinder.cpp *)
(** ValidTransactionFinder.cpp:40-64. [flushed]: GetFlushedBlockHeader, the header of the last committed block. *)
Definition IsValidTransaction (d : blockdb) (s : txhashset) (flushed : BlockHeader) (t : Transaction) : outcome bool :=
  match (let* _ := Validate t (add64 (h_height flushed) 1) in IsValid env d s t) with
  | Ret ok => Ret ok
  | Throw => Ret false
  | Fault => Fault
  end.
(** ValidTransactionFinder.cpp:16-37, [valid]: the transactions kept so far. The aggregation is outside the try block. *)
Fixpoint FindValid (d : blockdb) (s : txhashset) (flushed : BlockHeader) (extra : option Transaction) (valid ts : list txptr) : outcome (list txptr) :=
  match ts with
  | [] => Ret valid
  | t :: rest =>
    let* agg := Aggregate_txs (map p_tx valid ++ match extra with Some x => [x] | None => [] end ++ [p_tx t]) in
    let* ok := IsValidTransaction d s flushed agg in
    FindValid d s flushed extra (if ok then valid ++ [t] else valid) rest
  end.
Definition FindValidTransactions d s flushed (ts : list txptr) (extra : option Transaction) : outcome (list txptr) := FindValid d s flushed extra [] ts.

(** Pool.cpp:135-166. [insert] of the map keeps the first entry of a hash (149); [at] throws if there is none (163). The pool has been
    cleared (153) if this throws. *)
Fixpoint entries_at (filtered : list entry) (ts : list txptr) : outcome (list entry) :=
  match ts with
  | [] => Ret []
  | t :: rest =>
    match find (fun e => tx_eqb (e_tx e) (p_tx t)) filtered with
    | Some e => let* es := entries_at filtered rest in Ret (e :: es)
    | None => Throw
    end
  end.
Definition Pool_ReconcileBlock d s flushed (b : FullBlock) (extra : option Transaction) (p : list entry) : outcome (list entry) :=
  let filtered := filter (fun e => negb (ShouldEvict (e_tx e) b)) p in
  let* valid := FindValidTransactions d s flushed (map e_ptr filtered) extra in
  entries_at filtered valid.

(** ** TransactionPoolImpl.cpp *)
(** TransactionPoolImpl.cpp:20-91. [random]: CSPRNG::GenerateRandom(0, 100). [set]: null while the output set is replaced. The result is
    [Throw] if IsValid throws (nothing catches it here). *)
Definition AddTransaction (d : blockdb) (set : option txhashset) (t : txptr) (ty : EPoolType) (lastConfirmed : BlockHeader) (random : N)
  (p : txpool) : outcome EAddTransactionStatus * txpool :=
  let next := add64 (h_height lastConfirmed) 1 in
  if match ty with MEMPOOL => ContainsTransaction (m_memPool p) (p_tx t) | STEMPOOL => false end then (Ret DUPL_TX, p) else
  match FeeMeetsMinimum env fee_base (p_tx t) next with
  | Throw => (Fault, p) (* noexcept: std::terminate *)
  | Fault => (Fault, p)
  | Ret false => (Ret LOW_FEE, p)
  | Ret true =>
    if existsb (fun k => next <? k_lockHeight k) (b_kernels (t_body (p_tx t))) then (Ret NOT_ADDED, p) else
    match Validate (p_tx t) next with
    | Fault => (Fault, p)
    | Throw => (Ret TX_INVALID, p)
    | Ret _ =>
      match match set with None => Ret false | Some s => IsValid env d s (p_tx t) end with
      | Fault => (Fault, p)
      | Throw => (Throw, p)
      | Ret false => (Ret NOT_ADDED, p)
      | Ret true =>
        (Ret ADDED,
         match ty with
         | MEMPOOL => mkPool (Pool_AddTransaction (m_memPool p) t FLUFFED) (RemoveTransaction (m_stemPool p) (p_tx t))
         | STEMPOOL => mkPool (m_memPool p) (Pool_AddTransaction (m_stemPool p) t (if random <=? stemProbability then TO_STEM else TO_FLUFF))
         end)
      end
    end
  end.
(** TransactionPoolImpl.cpp:100-111. *)
Definition FindTransactionByKernelHash (p : txpool) (h : bytes) : option txptr :=
  match Pool_FindByKernelHash (m_memPool p) h with
  | Some t => Some t
  | None => Pool_FindByKernelHash (m_stemPool p) h
  end.
(** TransactionPoolImpl.cpp:113-123; the instance of BlockModel's [ReconcileBlock]. *)
Definition ReconcileBlock d s flushed (b : FullBlock) (p : txpool) : outcome unit * txpool :=
  match Pool_ReconcileBlock d s flushed b None (m_memPool p) with
  | Fault => (Fault, p)
  | Throw => (Throw, mkPool [] (m_stemPool p))
  | Ret mem =>
    match Pool_Aggregate mem with
    | Fault => (Fault, p)
    | Throw => (Throw, mkPool mem (m_stemPool p))
    | Ret extra =>
      match Pool_ReconcileBlock d s flushed b extra (m_stemPool p) with
      | Fault => (Fault, p)
      | Throw => (Throw, mkPool mem [])
      | Ret stem => (Ret tt, mkPool mem stem)
      end
    end
  end.
(** TransactionPoolImpl.cpp:129-148, 159-178: the entries of a status, those of them that are valid together, and their aggregate
    (a new transaction at address [fresh], or the same pointer if there is only one: TransactionUtil.h:61-63). *)
Definition select d s flushed (status : EDandelionStatus) (fresh : N) (p : txpool) : outcome (list txptr * option txptr) :=
  match FindTransactionsByStatus (m_stemPool p) status with
  | [] => Ret ([], None)
  | ts =>
    let* extra := Pool_Aggregate (m_memPool p) in
    let* valid := FindValidTransactions d s flushed ts extra in
    match valid with
    | [] => Ret ([], None)
    | [t] => Ret ([t], Some t)
    | _ => let* a := Aggregate_txs (map p_tx valid) in Ret (valid, Some (mkPtr fresh a))
    end
  end.
(** TransactionPoolImpl.cpp:125-153. *)
Definition GetTransactionToStem d s flushed (fresh : N) (p : txpool) : outcome (option txptr) * txpool :=
  match select d s flushed TO_STEM fresh p with
  | Fault => (Fault, p)
  | Throw => (Throw, p)
  | Ret (valid, agg) => (Ret agg, mkPool (m_memPool p) (ChangeStatus (m_stemPool p) valid STEMMED))
  end.
(** TransactionPoolImpl.cpp:155-187. *)
Definition GetTransactionToFluff d s flushed (fresh : N) (p : txpool) : outcome (option txptr) * txpool :=
  match select d s flushed TO_FLUFF fresh p with
  | Fault => (Fault, p)
  | Throw => (Throw, p)
  | Ret (valid, None) => (Ret None, p)
  | Ret (valid, Some a) =>
    (Ret (Some a), mkPool (Pool_AddTransaction (m_memPool p) a FLUFFED)
                          (fold_left (fun stem t => RemoveTransaction stem (p_tx t)) valid (m_stemPool p)))
  end.
(** TransactionPoolImpl.cpp:189-195: a uint16 sum. [random]: CSPRNG::GenerateRandom(0, 30). *)
Definition GetExpiredTransactions (p : txpool) (now : Z) (random : N) : list txptr :=
  Pool_GetExpiredTransactions (m_stemPool p) now ((embargoSeconds + random) mod W16).

(** ** src/P2P/Dandelion.cpp. The chain the node is at, as the pool's callers see it: database, output set, the header it was flushed at
    (GetFlushedBlockHeader) and the confirmed tip (null: none). *)
Record world := mkWorld { w_db : blockdb; w_set : option txhashset; w_flushed : BlockHeader; w_tip : option BlockHeader }.
(** src/BlockChain/BlockChainImpl.cpp:205-240: true for SUCCESS. *)
Definition Chain_AddTransaction (w : world) (t : txptr) (ty : EPoolType) (random : N) (p : txpool) : outcome bool * txpool :=
  match w_tip w with
  | None => (Ret false, p)
  | Some tip =>
    match AddTransaction (w_db w) (w_set w) t ty tip random p with
    | (Ret ADDED, p') => (Ret true, p')
    | (Ret _, p') => (Ret false, p')
    | (Throw, p') => (Ret false, p')
    | (Fault, p') => (Fault, p')
    end
  end.
(** What leaves the node: a transaction sent to one relay, or broadcast to all peers. *)
Inductive sent := ToRelay (t : Transaction) | Broadcast (t : Transaction).
(** Dandelion.cpp:136-154. [success]: the relay took the message. *)
Definition ProcessStemPhase (w : world) (relay success : bool) (fresh : N) (p : txpool) : outcome (list sent) * txpool :=
  if negb relay then (Ret [], p) else
  match w_set w with
  | None => (Ret [], p)
  | Some s =>
    match GetTransactionToStem (w_db w) s (w_flushed w) fresh p with
    | (Fault, p') => (Fault, p')
    | (Throw, p') => (Throw, p')
    | (Ret None, p') => (Ret [], p')
    | (Ret (Some t), p') =>
      if success then (Ret [ToRelay (p_tx t)], p') else
      match Chain_AddTransaction w t MEMPOOL 0 p' with
      | (Fault, p2) => (Fault, p2)
      | (Throw, p2) => (Throw, p2)
      | (Ret true, p2) => (Ret [Broadcast (p_tx t)], p2)
      | (Ret false, p2) => (Ret [], p2)
      end
    end
  end.
(** Dandelion.cpp:159-187. *)
Definition ProcessFluffPhase (w : world) (fresh : N) (p : txpool) : outcome (list sent) * txpool :=
  match w_set w with
  | None => (Ret [], p)
  | Some s =>
    match GetTransactionToFluff (w_db w) s (w_flushed w) fresh p with
    | (Fault, p') => (Fault, p')
    | (Throw, p') => (Throw, p')
    | (Ret None, p') => (Ret [], p')
    | (Ret (Some t), p') => (Ret [Broadcast (p_tx t)], p')
    end
  end.
(** Dandelion.cpp:189-209. *)
Fixpoint add_expired (w : world) (ts : list txptr) (p : txpool) : outcome (list sent) * txpool :=
  match ts with
  | [] => (Ret [], p)
  | t :: rest =>
    match Chain_AddTransaction w t MEMPOOL 0 p with
    | (Fault, p1) => (Fault, p1)
    | (Throw, p1) => (Throw, p1)
    | (Ret ok, p1) =>
      match add_expired w rest p1 with
      | (Ret out, p2) => (Ret (if ok then Broadcast (p_tx t) :: out else out), p2)
      | r => r
      end
    end
  end.
Definition ProcessExpiredEntries (w : world) (now : Z) (random : N) (p : txpool) : outcome (list sent) * txpool :=
  add_expired w (GetExpiredTransactions p now random) p.
End Pool.
