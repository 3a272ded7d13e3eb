(** Model of the transfer of the output set between nodes (src/P2P/Pipeline/TxHashSetPipe.cpp), and of taking over a downloaded set
    (src/BlockChain/Processors/TxHashSetProcessor.cpp). *)
From Verif Require Import Base Bytes FileModel MMRIndexModel MMRHashModel SerialModel CodecModel ConsensusModel HeaderModel UtxoModel BlockModel.
Local Open Scope N_scope.

(** TxHashSetPipe.cpp:17. *)
Definition BUFFER_SIZE : N := 131072.

(** * Sending *)
(** TxHashSetPipe.cpp:209-220: the loop over the file. std::istream::read of [BUFFER_SIZE] bytes fails if fewer are left (it then has
    them in the buffer, but sets failbit). Every SendSync succeeds here. [turns] is at least the number of turns. *)
Fixpoint send_chunks (turns : nat) (file : bytes) : list bytes :=
  match turns with
  | O => []
  | S t => if nlen file <? BUFFER_SIZE then [] else firstn (N.to_nat BUFFER_SIZE) file :: send_chunks t (skipn (N.to_nat BUFFER_SIZE) file)
  end.

(** One connection: Peer::m_lastTxHashSetRequest, whether the peer is banned, Connection::m_sendingDisabled, and what was sent. *)
Inductive wire := WArchive (hash : bytes) (height zippedSize : N) | WBytes (b : bytes) | WMessage (m : bytes).
Record link := mkLink { l_lastRequest : Z; l_banned : bool; l_sendingDisabled : bool; l_wire : list wire }.
(** src/P2P/Connection.cpp:52-73: SendAsync. *)
Definition SendAsync (m : bytes) (l : link) : link :=
  if l_sendingDisabled l then l else mkLink (l_lastRequest l) (l_banned l) (l_sendingDisabled l) (l_wire l ++ [WMessage m]).
(** TxHashSetPipe.cpp:153-231: SendTxHashSet and Thread_SendTxHashSet, run to its end. [find]: GetBlockHeaderByHash. [snapshot]:
    SnapshotTxHashSet, the bytes of the zip file; [None] if it throws. Times in seconds. *)
Definition SendTxHashSet (find : bytes -> option BlockHeader) (snapshot : BlockHeader -> option bytes) (now : Z) (hash : bytes) (l : link) : link :=
  if (now - 7200 <? l_lastRequest l)%Z then mkLink (l_lastRequest l) true (l_sendingDisabled l) (l_wire l) else
  let l := mkLink now (l_banned l) true (l_wire l) in
  match find hash with
  | None => l
  | Some h =>
    match snapshot h with
    | None => l
    | Some file =>
      mkLink (l_lastRequest l) (l_banned l) false
             (l_wire l ++ WArchive (BlockHeader_GetHash h) (h_height h) (nlen file) :: map WBytes (send_chunks (length file) file))
    end
  end.

(** * Receiving *)
(** The conversion of std::uint64_t to int, and of int to std::size_t. *)
Definition to_int (x : N) : Z := let y := Z.of_N (x mod W32) in if (y <? 2 ^ 31)%Z then y else (y - 2 ^ 32)%Z.
Definition to_size (x : Z) : N := Z.to_N (x mod 2 ^ 64)%Z.
(** Socket.cpp:229-263 and Connection.cpp:258-270: ReceiveSync. [stream]: the bytes the peer has yet to send; it sends them in time, and
    then no more. A vector of 2^63 bytes or more cannot be made. *)
Definition ReceiveSync (num_bytes : N) (stream : bytes) : outcome (option (bytes * bytes)) :=
  if num_bytes =? 0 then Ret (Some ([], stream)) else
  match stream with
  | [] => Ret None
  | _ => if 2 ^ 63 <=? num_bytes then Throw else
         if num_bytes <=? nlen stream then Ret (Some (firstn (N.to_nat num_bytes) stream, skipn (N.to_nat num_bytes) stream)) else Ret None
  end.
(** TxHashSetPipe.cpp:94-118: the download loop. [None]: not finished after [turns] turns. [Ret None]: the transmission ended abruptly.
    With no bytes to read, line 112 takes the address of the first element of an empty buffer; this is taken to be harmless. *)
Fixpoint download (turns : nat) (zipped_size bytesReceived : N) (file stream : bytes) : option (outcome (option bytes)) :=
  if zipped_size <=? bytesReceived then Some (Ret (Some file)) else
  match turns with
  | O => None
  | S t =>
    let bytesToRead := Z.min (to_int (sub64 zipped_size bytesReceived)) (Z.of_N BUFFER_SIZE) in
    match ReceiveSync (to_size bytesToRead) stream with
    | Ret (Some (buffer, rest)) => download t zipped_size (add64 bytesReceived (to_size bytesToRead)) (file ++ buffer) rest
    | Ret None => Some (Ret None)
    | Throw => Some Throw
    | Fault => Some Fault
    end
  end.

(** include/P2P/SyncStatus.h:7-16. *)
Inductive ESyncStatus := SYNCING_HEADERS | SYNCING_TXHASHSET | PROCESSING_TXHASHSET | TXHASHSET_SYNC_FAILED | SYNCING_BLOCKS
  | WAITING_FOR_PEERS | NOT_SYNCING.

Section Process.
Variable pool : Type.
(** TxHashSetManager::LoadFromZip (TxHashSetManager.cpp:51-89): the set in the archive, rewound to the sizes of the header. [None]: the
    archive is bad. What it leaves in the directory of the set is not modelled. *)
Variable LoadFromZip : bytes -> BlockHeader -> option txhashset.
(** TxHashSet::ValidateTxHashSet. *)
Variable ValidateTxHashSet : txhashset -> BlockHeader -> outcome (option BlockSums).

(** TxHashSetManager.h:22, 26: Close and SetTxHashSet, which are not undone by a rollback. *)
Definition with_set (n : node pool) (s : option txhashset) : node pool := mkNode pool (n_chain pool n) (n_db pool n) (mkVer s s) (n_orphans pool n) (n_pool pool n).

(** TxHashSetImpl.cpp:232-256: SaveOutputPositions; the inner and the outer loop. *)
Fixpoint save_leaves (count : nat) (s : txhashset) (leaf height : N) (d : blockdb) : outcome blockdb :=
  match count with
  | O => Ret d
  | S c =>
    let* o := Output_GetAt s (LeafIndex_At leaf) in
    save_leaves c s (leaf + 1) height
      (match o with Some o => AddOutputPosition d (oi_commitment o) (mkLoc (LeafIndex_At leaf) height) | None => d end)
  end.
Fixpoint save_positions (chain : list bytes) (headers : table BlockHeader) (s : txhashset) (leaf : N) (d : blockdb) : outcome blockdb :=
  match chain with
  | [] => Ret d
  | hash :: rest =>
    match tget headers hash with
    | None => save_positions rest headers s leaf d
    | Some h =>
      let* n := GetNumOutputs h in
      let* d := save_leaves (N.to_nat (n - leaf)) s leaf (h_height h) d in
      save_positions rest headers s (N.max leaf n) d
    end
  end.

(** TxHashSetProcessor.cpp:78-101: UpdateConfirmedChain. *)
Definition UpdateConfirmedChain (h : BlockHeader) : B pool bool :=
  bbind pool (bget pool) (fun n =>
  let candidate := now_ (s_candidate (n_chain pool n)) in
  match nth_error candidate (N.to_nat (h_height h)) with
  | None => blift pool (Some Fault)
  | Some hash =>
    if negb (bytes_eqb hash (BlockHeader_GetHash h)) then bret pool false else
    let confirmed := confirmed_now pool n in
    let c := common candidate confirmed (Nat.min (length candidate) (length confirmed) - 1) in
    bbind pool (Confirmed_Rewind pool (N.of_nat c)) (fun _ =>
    bbind pool (bget pool) (fun n =>
    bbind pool (bput pool (set_confirmed pool n (confirmed_now pool n ++ skipn (S c) (firstn (S (N.to_nat (h_height h))) candidate)))) (fun _ =>
    bret pool true)))
  end).

(** TxHashSetProcessor.cpp:21-76: ProcessTxHashSet. *)
Definition ProcessTxHashSet (hash zip : bytes) : B pool bool := fun n =>
  match tget (d_headers (view pool n)) hash with
  | None => (Some (Ret false), n)
  | Some h =>
    let n := with_set n None in
    match LoadFromZip zip h with
    | None => (Some (Ret false), n)
    | Some s =>
      match ValidateTxHashSet s h with
      | Throw => (Some Throw, n)
      | Fault => (Some Fault, n)
      | Ret None => (Some (Ret false), n)
      | Ret (Some sums) =>
        in_batch pool (
          bbind pool (bget pool) (fun n =>
          let d := db_AddBlockSums (BlockHeader_GetHash h) sums (now_ (n_db pool n)) in
          let chain := firstn (S (N.to_nat (h_height (m_pBlockHeader s)))) (now_ (s_candidate (n_chain pool n))) in
          bbind pool (blift pool (Some (save_positions chain (d_headers (view pool n)) s 0 d))) (fun d =>
          bbind pool (bput pool (with_set (set_bdb pool n d) (Some s))) (fun _ =>
          bbind pool (UpdateConfirmedChain h) (fun ok =>
          bbind pool (bget pool) (fun n =>
          if (ok : bool) then bbind pool (bput pool (commit_all pool n)) (fun _ => bret pool true)
          else bbind pool (bput pool (with_set n None)) (fun _ => bret pool false))))))) n
      end
    end
  end.
(** BlockChainImpl.cpp:187-203: ProcessTransactionHashSet; [false]: INVALID. *)
Definition ProcessTransactionHashSet (hash zip : bytes) : B pool bool := fun n =>
  match ProcessTxHashSet hash zip n with
  | (Some Throw, n') => (Some (Ret false), n')
  | r => r
  end.

(** The pipe: TxHashSetPipe::m_processing, the status, and the connections that were banned. *)
Record pipe := mkPipe { m_processing : bool; p_status : ESyncStatus; p_banned : list N }.
(** TxHashSetPipe.cpp:37-65: ReceiveTxHashSet. [true]: the thread is started. The status is looked at only for the log. *)
Definition ReceiveTxHashSet (connection : N) (p : pipe) : bool * pipe :=
  if m_processing p then (false, mkPipe (m_processing p) (p_status p) (p_banned p ++ [connection])) else (true, mkPipe true (p_status p) (p_banned p)).
(** TxHashSetPipe.cpp:67-151: Thread_ProcessTxHashSet. [None]: still running after [turns] turns of the download loop. *)
Definition Thread_ProcessTxHashSet (turns : nat) (connection zipped_size : N) (blockHash stream : bytes) (np : node pool * pipe) : option (outcome (node pool * pipe)) :=
  let '(n, p) := np in
  let failed n := Some (Ret (n, mkPipe false TXHASHSET_SYNC_FAILED (p_banned p ++ [connection]))) in
  match download turns zipped_size 0 [] stream with
  | None => None
  | Some (Ret (Some file)) =>
    match ProcessTransactionHashSet blockHash file n with
    | (Some (Ret true), n') => Some (Ret (n', mkPipe false SYNCING_BLOCKS (p_banned p)))
    | (Some (Ret false), n') | (Some Throw, n') => failed n'
    | (Some Fault, _) => Some Fault
    | (None, _) => None
    end
  | Some (Ret None) | Some Throw => failed n
  | Some Fault => Some Fault
  end.
End Process.
