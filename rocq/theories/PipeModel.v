(** Model of the two pipes through which a node takes received blocks and transactions: ConcurrentQueue (include/Common/ConcurrentQueue.h),
    BlockPipe (src/P2P/Pipeline/BlockPipe.cpp) and TransactionPipe (src/P2P/Pipeline/TransactionPipe.cpp), with every schedule of their threads.
    What the block chain does with a block or a transaction is a parameter, and any other thread may change the block chain at any time.
    Not modelled: the thread of orphans (BlockPipe.cpp:83-98; see BlockModel.v), failing to start a thread, and running out of memory. *)
From Verif Require Import Base.
Local Open Scope N_scope.

(** ** ConcurrentQueue: each operation holds the lock of the queue, so each is one step. *)
Section QUEUE.
Context {T : Type}.
(** copy_front(numItems), ConcurrentQueue.h:45-63 *)
Fixpoint copy_loop (numItems : nat) (items q : list T) : list T :=
  match q with
  | [] => items
  | x :: q' => let items := items ++ [x] in if Nat.eqb (length items) numItems then items else copy_loop numItems items q'
  end.
Definition copy_front (numItems : nat) (q : list T) : list T := copy_loop numItems [] q.
(** pop_front(numItems), 77-87 *)
Fixpoint pop_front (numItems : nat) (q : list T) : list T :=
  match numItems, q with
  | S n, _ :: q' => pop_front n q'
  | _, _ => q
  end.
(** push_back_unique, 128-142 *)
Definition push_back_unique (same : T -> T -> bool) (x : T) (q : list T) : bool * list T :=
  if existsb (fun y => same y x) q then (false, q) else (true, q ++ [x]).
End QUEUE.

(** A block: the hash of its header, which is what FullBlock::GetHash returns (include/Core/Models/FullBlock.h:102), and everything else. *)
Record Block := mkBlock { b_hash : N; b_body : N }.
(** What AddBlock does: return EBlockChainStatus::INVALID, return something else, or throw. *)
Inductive Outcome := Fine | Invalid | Threw.
(** BlockEntry, BlockPipe.h:34-43. [be_ticket] is not in the code: it counts the blocks put into the queue, to tell them apart. *)
Record BlockEntry := mkBE { be_ticket : nat; be_peer : N; be_block : Block }.

Section BLOCKS.
Context {C : Type}.
Variable AddBlock : C -> Block -> C * Outcome.

(** [bp_batch]: the copies the thread of the pipe works on, each with whether ProcessNewBlock has run for it; None between two rounds. *)
Record BlockPipe := mkBP { bp_queue : list BlockEntry; bp_batch : option (list (BlockEntry * bool)); bp_chain : C; bp_count : nat }.

Inductive BlockStep :=
| Receive (peer : N) (b : Block)  (* AddBlockToProcess, by the thread of a connection, BlockPipe.cpp:100-108 *)
| Copy                            (* 38-40 *)
| Run (i : nat)                   (* 41-53: the task for the [i]-th copy; tasks run in any order *)
| Join                            (* 53-56 *)
| Change (c : C).                 (* any other thread changes the block chain *)

(** What can be seen from outside. *)
Inductive BlockEvent :=
| Accepted (e : BlockEntry)               (* AddBlockToProcess returned true *)
| Dropped (peer : N) (b : Block)          (* AddBlockToProcess returned false *)
| Called (e : BlockEntry) (o : Outcome)   (* AddBlock was called *)
| Banned (peer : N)                       (* the peer was banned *)
| Removed (e : BlockEntry).               (* the entry left the queue *)

Fixpoint set_done (i : nat) (l : list (BlockEntry * bool)) : list (BlockEntry * bool) :=
  match l, i with
  | [], _ => []
  | (e, _) :: l', O => (e, true) :: l'
  | x :: l', S i' => x :: set_done i' l'
  end.

(** ProcessNewBlock, BlockPipe.cpp:67-81 *)
Definition ProcessNewBlock (c : C) (e : BlockEntry) : C * list BlockEvent :=
  let '(c', o) := AddBlock c (be_block e) in
  (c', match o with
       | Invalid | Threw => [Called e o; Banned (be_peer e)]
       | Fine => [Called e o]
       end).

(** The comparator of AddBlockToProcess, 102-105 *)
Definition same_block (x y : BlockEntry) : bool := b_hash (be_block x) =? b_hash (be_block y).

Definition block_step (p : BlockPipe) (s : BlockStep) : BlockPipe * list BlockEvent :=
  match s with
  | Receive peer b =>
      let e := mkBE (bp_count p) peer b in
      match push_back_unique same_block e (bp_queue p) with
      | (true, q) => (mkBP q (bp_batch p) (bp_chain p) (S (bp_count p)), [Accepted e])
      | (false, _) => (p, [Dropped peer b])
      end
  | Copy =>
      match bp_batch p, copy_front 8 (bp_queue p) with
      | None, (_ :: _) as l => (mkBP (bp_queue p) (Some (map (fun e => (e, false)) l)) (bp_chain p) (bp_count p), [])
      | _, _ => (p, [])
      end
  | Run i =>
      match bp_batch p with
      | Some l =>
          match nth_error l i with
          | Some (e, false) =>
              let '(c, ev) := ProcessNewBlock (bp_chain p) e in
              (mkBP (bp_queue p) (Some (set_done i l)) c (bp_count p), ev)
          | _ => (p, [])
          end
      | None => (p, [])
      end
  | Join =>
      match bp_batch p with
      | Some l =>
          if forallb snd l
          then (mkBP (pop_front (length l) (bp_queue p)) None (bp_chain p) (bp_count p), map Removed (firstn (length l) (bp_queue p)))
          else (p, [])
      | None => (p, [])
      end
  | Change c => (mkBP (bp_queue p) (bp_batch p) c (bp_count p), [])
  end.
Fixpoint block_run (p : BlockPipe) (h : list BlockStep) : BlockPipe * list BlockEvent :=
  match h with
  | [] => (p, [])
  | s :: h' => let '(p1, ev) := block_step p s in let '(p2, evs) := block_run p1 h' in (p2, ev ++ evs)
  end.
Definition empty_pipe (c : C) : BlockPipe := mkBP [] None c 0.
(** IsProcessingBlock, 110-118, without the orphans *)
Definition IsProcessingBlock (p : BlockPipe) (hash : N) : bool := existsb (fun e => b_hash (be_block e) =? hash) (bp_queue p).
End BLOCKS.
Arguments BlockPipe C : clear implicits.
Arguments BlockStep C : clear implicits.

(** ** Transactions *)
Inductive PoolType := MEMPOOL | STEMPOOL.
(** A transaction: its hash and the hashes of its kernels. *)
Record Tx := mkTx { t_hash : N; t_kernels : list N }.
(** TxEntry, TransactionPipe.h:43-55 *)
Record TxEntry := mkTE { te_connection : N; te_peer : N; te_tx : Tx; te_pool : PoolType }.
(** What TransactionPool::AddTransaction does: one of the values of EAddTransactionStatus, or throw. *)
Inductive PoolStatus := ADDED | DUPL_TX | LOW_FEE | TX_INVALID | NOT_ADDED | PoolThrew.
Inductive ChainStatus := SUCCESS | INVALID | UNKNOWN_ERROR.

Section TRANSACTIONS.
Context {C : Type}.
(** Whether there is a last confirmed header, and the pool. *)
Variable has_tip : C -> bool.
Variable pool_add : C -> Tx -> PoolType -> C * PoolStatus.

(** BlockChain::AddTransaction, src/BlockChain/BlockChainImpl.cpp:205-240 *)
Definition AddTransaction (c : C) (t : Tx) (pt : PoolType) : C * ChainStatus :=
  if has_tip c then
    match pool_add c t pt with
    | (c', ADDED) => (c', SUCCESS)
    | (c', TX_INVALID) => (c', INVALID)
    | (c', PoolThrew) => (c', INVALID)
    | (c', _) => (c', UNKNOWN_ERROR)
    end
  else (c, INVALID).

(** [tp_current]: the copy of the front that the thread works on, and whether AddTransaction was called for it. *)
Record TxPipe := mkTP { tp_queue : list TxEntry; tp_current : option (TxEntry * bool); tp_chain : C }.
Inductive TxStep :=
| TxReceive (connection peer : N) (t : Tx) (pt : PoolType)  (* AddTransactionToProcess, TransactionPipe.cpp:78-86 *)
| TxCopy                                                   (* 42-43 *)
| TxAdd                                                    (* 45-59 *)
| TxPop                                                    (* 61 *)
| TxChange (c : C).
Inductive TxEvent :=
| TxAccepted (e : TxEntry)
| TxDropped (peer : N) (t : Tx) (pt : PoolType)
| TxCalled (e : TxEntry) (s : ChainStatus)
| Broadcast (kernel : N) (except : N)    (* a TransactionKernelMessage to every connection but one *)
| TxBanned (peer : N).

Definition same_tx (x y : TxEntry) : bool := t_hash (te_tx x) =? t_hash (te_tx y).
Definition tx_step (p : TxPipe) (s : TxStep) : TxPipe * list TxEvent :=
  match s with
  | TxReceive cn peer t pt =>
      let e := mkTE cn peer t pt in
      match push_back_unique same_tx e (tp_queue p) with
      | (true, q) => (mkTP q (tp_current p) (tp_chain p), [TxAccepted e])
      | (false, _) => (p, [TxDropped peer t pt])
      end
  | TxCopy =>
      match tp_current p, tp_queue p with
      | None, e :: _ => (mkTP (tp_queue p) (Some (e, false)) (tp_chain p), [])
      | _, _ => (p, [])
      end
  | TxAdd =>
      match tp_current p with
      | Some (e, false) =>
          let '(c, st) := AddTransaction (tp_chain p) (te_tx e) (te_pool e) in
          (mkTP (tp_queue p) (Some (e, true)) c,
           TxCalled e st ::
           match st, te_pool e with
           | SUCCESS, MEMPOOL => map (fun k => Broadcast k (te_connection e)) (t_kernels (te_tx e))
           | INVALID, _ => [TxBanned (te_peer e)]
           | _, _ => []
           end)
      | _ => (p, [])
      end
  | TxPop =>
      match tp_current p with
      | Some (_, true) => (mkTP (pop_front 1 (tp_queue p)) None (tp_chain p), [])
      | _ => (p, [])
      end
  | TxChange c => (mkTP (tp_queue p) (tp_current p) c, [])
  end.
Fixpoint tx_run (p : TxPipe) (h : list TxStep) : TxPipe * list TxEvent :=
  match h with
  | [] => (p, [])
  | s :: h' => let '(p1, ev) := tx_step p s in let '(p2, evs) := tx_run p1 h' in (p2, ev ++ evs)
  end.
Definition empty_tx_pipe (c : C) : TxPipe := mkTP [] None c.
End TRANSACTIONS.
Arguments TxPipe C : clear implicits.
Arguments TxStep C : clear implicits.
