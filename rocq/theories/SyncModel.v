(** Model of the choice of peers (src/P2P/ConnectionManager.cpp) and of synchronization: which headers, archives and blocks a node asks
    for, when, and from whom (src/P2P/Sync/). *)
From Verif Require Import Base Bytes ConsensusModel StateModel.
Local Open Scope N_scope.

(** include/Consensus.h:166; include/P2P/Common.h:25. *)
Definition STATE_SYNC_THRESHOLD : N := 2880.
Definition MAX_BLOCK_HEADERS : N := 512.

(** * Connections *)
(** A connection: the address of the peer, the height and the total difficulty it claims, and whether it is still open. *)
Record conn := mkConn { c_addr : N; c_height : N; c_difficulty : N; c_active : bool }.

(** ConnectionManager.cpp:221-251: the loop of GetMostWorkPeer. *)
Fixpoint most_work (l : list conn) (mostWork mostWorkHeight : N) (mostWorkPeers : list conn) : list conn :=
  match l with
  | [] => mostWorkPeers
  | c :: l' =>
    if c_height c =? 0 then most_work l' mostWork mostWorkHeight mostWorkPeers else
    if mostWork <? c_difficulty c then most_work l' (c_difficulty c) (c_height c) [c] else
    if c_difficulty c =? mostWork then
      if mostWorkHeight <? c_height c then most_work l' mostWork (c_height c) [c] else
      if c_height c =? mostWorkHeight then most_work l' mostWork mostWorkHeight (mostWorkPeers ++ [c]) else most_work l' mostWork mostWorkHeight mostWorkPeers
    else most_work l' mostWork mostWorkHeight mostWorkPeers
  end.
(** 219-261: GetMostWorkPeer. [random] is reduced to the range of CSPRNG::GenerateRandom. *)
Definition GetMostWorkPeer (random : nat) (l : list conn) : option conn :=
  let m := most_work l 0 0 [] in nth_error m (random mod length m)%nat.
(** 79-95: GetMostWorkPeers. *)
Definition GetMostWorkPeers (random : nat) (l : list conn) : list N :=
  match GetMostWorkPeer random l with
  | None => []
  | Some m => map c_addr (filter (fun c => (c_difficulty m <=? c_difficulty c) && (0 <? c_height c))%bool l)
  end.
(** 66-77: IsConnected. *)
Definition IsConnected (l : list conn) (addr : N) : bool := existsb (fun c => (c_addr c =? addr) && c_active c)%bool l.
(** 147-158: SendMessageToPeer; whether there is a connection to send to. *)
Definition can_send (l : list conn) (addr : N) : bool := existsb (fun c => c_addr c =? addr) l.
(** 191-217: PruneConnections. After [erase], the iterator is at the next connection, and is then moved on. (By the standard it is invalid
    after [erase]; this is what it is for vectors.) The result is what is left; the others are disconnected. *)
Fixpoint PruneConnections (bInactiveOnly : bool) (l : list conn) : list conn :=
  match l with
  | [] => []
  | c :: l' =>
    if (negb bInactiveOnly || negb (c_active c))%bool
    then match l' with [] => [] | d :: l'' => d :: PruneConnections bInactiveOnly l'' end
    else c :: PruneConnections bInactiveOnly l'
  end.

(** * One turn of the thread *)
(** What the thread sees during a turn: the time (in seconds; it does not pass during a turn), the connections, the heights of the best
    header and of the confirmed chain, the hash of the header at a height of the best header chain, the blocks GetBlocksNeeded lists
    (BlockModel has it; asked for [k], it lists the first [k]), the blocks in the block pipe, the blocks stored, and the banned peers;
    GetMinSyncPeers, random numbers; a status written by another thread since the last turn, and the bytes of the archive downloaded. *)
Record world := mkWorld { w_now : Z; w_conns : list conn; w_headerHeight : N; w_blockHeight : N; w_headerAt : N -> option bytes; w_needed : list (N * bytes);
  w_processing : bytes -> bool; w_hasBlock : N -> bytes -> bool; w_banned : N -> bool; w_minPeers : N; w_random : nat;
  w_status : option ESyncStatus; w_downloaded : N }.

(** include/P2P/SyncStatus.h. *)
Record SyncStatus := mkStatus { m_syncStatus : ESyncStatus; m_numActiveConnections : N; m_networkHeight : N; m_headerHeight : N; m_blockHeight : N; m_downloaded : N }.
Definition UpdateStatus (x : ESyncStatus) (s : SyncStatus) := mkStatus x (m_numActiveConnections s) (m_networkHeight s) (m_headerHeight s) (m_blockHeight s) (m_downloaded s).

(** What a node does to its peers. *)
Inductive action := AHeaders (addr : N) | AState (addr : N) (hash : bytes) (height : N) | ABlock (addr : N) (hash : bytes) | ABan (addr : N).

(** HeaderSyncer.h:32-35. *)
Record HeaderSyncer := mkHS { hs_timeout : Z; hs_lastHeight : N; hs_peer : option N; hs_retried : bool }.
(** HeaderSyncer.cpp:34-82: IsHeaderSyncDue; 84-111: RequestHeaders. The locators are in LocatorModel. *)
Definition IsHeaderSyncDue (w : world) (s : SyncStatus) (h : HeaderSyncer) : bool * HeaderSyncer * list action :=
  match hs_peer h with
  | None => (true, h, [])
  | Some p =>
    if sub64 (add64 (hs_lastHeight h) MAX_BLOCK_HEADERS) 1 <=? m_headerHeight s then (true, mkHS (hs_timeout h) (hs_lastHeight h) (hs_peer h) false, []) else
    if negb (IsConnected (w_conns w) p) then (true, mkHS (hs_timeout h) (hs_lastHeight h) None (hs_retried h), []) else
    if (hs_timeout h <? w_now w)%Z then
      if hs_retried h then (true, mkHS (hs_timeout h) (hs_lastHeight h) None false, [ABan p])
      else (true, mkHS (hs_timeout h) (hs_lastHeight h) (hs_peer h) true, [])
    else (false, h, [])
  end.
Definition RequestHeaders (w : world) (s : SyncStatus) (h : HeaderSyncer) : HeaderSyncer * list action :=
  let '(peer, a) :=
    match hs_peer h with
    | Some p => if can_send (w_conns w) p then (Some p, [AHeaders p]) else
                match GetMostWorkPeer (w_random w) (w_conns w) with Some c => (Some (c_addr c), [AHeaders (c_addr c)]) | None => (None, []) end
    | None => match GetMostWorkPeer (w_random w) (w_conns w) with Some c => (Some (c_addr c), [AHeaders (c_addr c)]) | None => (None, []) end
    end in
  match peer with
  | Some p => (mkHS (w_now w + 10) (m_headerHeight s) (Some p) (hs_retried h), a)
  | None => (mkHS (hs_timeout h) (hs_lastHeight h) None (hs_retried h), a)
  end.
(** HeaderSyncer.cpp:7-32: SyncHeaders. *)
Definition SyncHeaders (w : world) (s : SyncStatus) (startup : bool) (h : HeaderSyncer) : bool * HeaderSyncer * list action :=
  if m_networkHeight s =? 0 then (true, h, []) else
  if ((add64 (m_headerHeight s) 5 <=? m_networkHeight s) || (startup && (m_headerHeight s <? m_networkHeight s)))%bool then
    let '(due, h, a) := IsHeaderSyncDue w s h in
    if due then let '(h, b) := RequestHeaders w s h in (true, h, a ++ b) else (true, h, a)
  else (false, mkHS (hs_timeout h) (hs_lastHeight h) None false, []).

(** StateSyncer.h:28-30. *)
Record StateSyncer := mkSS { ss_timeRequested : Z; ss_requestedHeight : N; ss_peer : option N }.
(** StateSyncer.cpp:28-88: IsStateSyncDue. *)
Definition IsStateSyncDue (w : world) (s : SyncStatus) (x : StateSyncer) : bool :=
  match m_syncStatus s with
  | PROCESSING_TXHASHSET => false
  | TXHASHSET_SYNC_FAILED => true
  | _ =>
    if m_headerHeight s <? CUT_THROUGH_HORIZON then false else
    if sub64 (m_headerHeight s) CUT_THROUGH_HORIZON <? m_blockHeight s then false else
    if ss_requestedHeight x =? 0 then true else
    if (ss_timeRequested x + 7200 <? w_now w)%Z then true else
    if ((ss_timeRequested x + 10 <? w_now w)%Z && (m_downloaded s =? 0))%bool then true else
    match ss_peer x with Some p => negb (IsConnected (w_conns w) p) | None => false end
  end.
(** StateSyncer.cpp:90-115: RequestState. A null pointer is followed if there is no header at the height: [Fault]. *)
Definition RequestState (w : world) (s : SyncStatus) (x : StateSyncer) : outcome (StateSyncer * list action) :=
  let a := match ss_peer x with Some p => [ABan p] | None => [] end in
  let requestedHeight := sub64 (m_headerHeight s) STATE_SYNC_THRESHOLD in
  match w_headerAt w requestedHeight with
  | None => Fault
  | Some hash =>
    match GetMostWorkPeer (w_random w) (w_conns w) with
    | Some c => Ret (mkSS (w_now w) requestedHeight (Some (c_addr c)), a ++ [AState (c_addr c) hash requestedHeight])
    | None => Ret (mkSS (ss_timeRequested x) (ss_requestedHeight x) None, a)
    end
  end.
(** StateSyncer.cpp:8-25: SyncState. *)
Definition SyncState (w : world) (s : SyncStatus) (x : StateSyncer) : outcome (bool * SyncStatus * StateSyncer * list action) :=
  if IsStateSyncDue w s x then
    let* r := RequestState w s x in Ret (true, UpdateStatus SYNCING_TXHASHSET s, fst r, snd r)
  else Ret (m_blockHeight s <? sub64 (m_headerHeight s) CUT_THROUGH_HORIZON, s, x, []).

(** BlockSyncer.h:40-52. A map from heights to requests. *)
Record RequestedBlock := mkReq { rq_peer : N; rq_timeout : Z; rq_retried : bool }.
Definition requests := list (N * RequestedBlock).
Fixpoint rfind (m : requests) (height : N) : option RequestedBlock :=
  match m with [] => None | (k, r) :: m' => if k =? height then Some r else rfind m' height end.
Definition rerase (m : requests) (height : N) : requests := filter (fun e => negb (fst e =? height)) m.
Definition rput (m : requests) (height : N) (r : RequestedBlock) : requests := (height, r) :: rerase m height.
Record BlockSyncer := mkBS { bs_lastHeight : N; bs_requested : requests; bs_slow : list N }.
Definition IsSlowPeer (slow : list N) (p : N) : bool := existsb (N.eqb p) slow.

(** BlockSyncer.cpp:49-75: the loop over the first 15 blocks needed: whether one of them is not properly requested. *)
Fixpoint missing_request (w : world) (b : BlockSyncer) (l : list (N * bytes)) : bool :=
  match l with
  | [] => false
  | (height, hash) :: l' =>
    match rfind (bs_requested b) height with
    | None => true
    | Some r =>
      if IsSlowPeer (bs_slow b) (rq_peer r) then true else
      if ((rq_timeout r <? w_now w)%Z && negb (w_processing w hash))%bool then true else missing_request w b l'
    end
  end.
(** BlockSyncer.cpp:27-78: IsBlockSyncDue. *)
Definition IsBlockSyncDue (w : world) (s : SyncStatus) (b : BlockSyncer) : bool * BlockSyncer :=
  let requested := filter (fun e => negb ((bs_lastHeight b <=? fst e) && (fst e <=? m_blockHeight s))%bool) (bs_requested b) in
  let b := mkBS (m_blockHeight s) requested (bs_slow b) in
  (((length requested <? 15)%nat || missing_request w b (firstn 15 (w_needed w)))%bool, b).

(** BlockSyncer.cpp:102-140: the loop that collects the blocks to request. [bans]: who was banned in this turn. *)
Fixpoint collect (w : world) (numBlocksNeeded : nat) (l : list (N * bytes)) (b : BlockSyncer) (bans : list N) (blocksToRequest : list (N * bytes)) (a : list action)
  : BlockSyncer * list (N * bytes) * list action :=
  match l with
  | [] => (b, blocksToRequest, a)
  | (height, hash) :: l' =>
    let next := fun b bans blocksToRequest a =>
      if (numBlocksNeeded <=? length blocksToRequest)%nat then (b, blocksToRequest, a) else collect w numBlocksNeeded l' b bans blocksToRequest a in
    if (w_processing w hash || w_hasBlock w height hash)%bool then collect w numBlocksNeeded l' b bans blocksToRequest a else
    match rfind (bs_requested b) height with
    | None => next b bans (blocksToRequest ++ [(height, hash)]) a
    | Some r =>
      let p := rq_peer r in
      if (IsSlowPeer (bs_slow b) p || (rq_timeout r <? w_now w)%Z)%bool then
        let slow := fun bans a => next (mkBS (bs_lastHeight b) (bs_requested b) (p :: bs_slow b)) bans (blocksToRequest ++ [(height, hash)]) a in
        if (w_banned w p || existsb (N.eqb p) bans)%bool then slow bans a else
        if (negb (rq_retried r) && can_send (w_conns w) p)%bool then
          collect w numBlocksNeeded l' (mkBS (bs_lastHeight b) (rput (bs_requested b) height (mkReq p (w_now w + 5) true)) (bs_slow b)) bans blocksToRequest (a ++ [ABlock p hash])
        else slow (p :: bans) (a ++ [ABan p])
      else next b bans blocksToRequest a
    end
  end.
(** BlockSyncer.cpp:142-158: the loop that sends the requests; [i] of them were sent before. *)
Fixpoint send_requests (w : world) (peers : list N) (nextPeer i : nat) (l : list (N * bytes)) (m : requests) (a : list action) : requests * list action :=
  match l with
  | [] => (m, a)
  | (height, hash) :: l' =>
    let p := nth nextPeer peers 0 in
    let '(m, a) := if can_send (w_conns w) p then (rput m height (mkReq p (w_now w + 10) false), a ++ [ABlock p hash]) else (m, a) in
    send_requests w peers (if ((i + 1) mod 16 =? 0)%nat then (nextPeer + 1) mod length peers else nextPeer)%nat (i + 1)%nat l' m a
  end.
(** BlockSyncer.cpp:80-164: RequestBlocks. *)
Definition RequestBlocks (w : world) (b : BlockSyncer) : BlockSyncer * list action :=
  let peers := GetMostWorkPeers (w_random w) (w_conns w) in
  match peers with
  | [] => (b, [])
  | _ =>
    let numBlocksNeeded := (16 * length peers)%nat in
    let '(b, blocksToRequest, a) := collect w numBlocksNeeded (firstn (2 * numBlocksNeeded) (w_needed w)) b [] [] [] in
    let '(m, a) := send_requests w peers (w_random w mod length peers)%nat 0 blocksToRequest (bs_requested b) a in
    (mkBS (bs_lastHeight b) m (bs_slow b), a)
  end.
(** BlockSyncer.cpp:9-25: SyncBlocks. *)
Definition SyncBlocks (w : world) (s : SyncStatus) (startup : bool) (b : BlockSyncer) : bool * BlockSyncer * list action :=
  if ((add64 (m_blockHeight s) 5 <=? m_networkHeight s) || (startup && (m_blockHeight s <? m_networkHeight s)))%bool then
    let '(due, b) := IsBlockSyncDue w s b in
    if due then let '(b, a) := RequestBlocks w b in (true, mkBS (m_blockHeight s) (bs_requested b) (bs_slow b), a) else (true, b, [])
  else (false, b, []).

(** Syncer.cpp:49-105: Thread_Sync: its variables, and one turn. *)
Record Syncer := mkSyncer { y_status : SyncStatus; y_headers : HeaderSyncer; y_state : StateSyncer; y_blocks : BlockSyncer; y_headersSynced : bool; y_blocksSynced : bool }.
(** ConnectionManager.cpp:54-64 and SyncStatus.h:70-88. *)
Definition UpdateSyncStatus (w : world) (s : SyncStatus) : SyncStatus :=
  mkStatus (match w_status w with Some x => x | None => m_syncStatus s end) (N.of_nat (length (w_conns w)))
    (match GetMostWorkPeer (w_random w) (w_conns w) with Some c => if c_height c =? 0 then m_networkHeight s else c_height c | None => m_networkHeight s end)
    (w_headerHeight w) (w_blockHeight w) (w_downloaded w).
Definition sync_turn (w : world) (y : Syncer) : outcome (Syncer * list action) :=
  let s := UpdateSyncStatus w (y_status y) in
  if w_minPeers w <=? m_numActiveConnections s then
    let '(syncing, h, a) := SyncHeaders w s (negb (y_headersSynced y)) (y_headers y) in
    if syncing then
      let s := match m_syncStatus s with SYNCING_TXHASHSET | PROCESSING_TXHASHSET => s | _ => UpdateStatus SYNCING_HEADERS s end in
      Ret (mkSyncer s h (y_state y) (y_blocks y) (y_headersSynced y) (y_blocksSynced y), a)
    else
      let* r := SyncState w s (y_state y) in
      let '(syncing, s, x, a) := r in
      if (syncing : bool) then Ret (mkSyncer s h x (y_blocks y) true (y_blocksSynced y), a) else
      let '(syncing, b, a) := SyncBlocks w s (negb (y_blocksSynced y)) (y_blocks y) in
      if (syncing : bool) then Ret (mkSyncer (UpdateStatus SYNCING_BLOCKS s) h x b true (y_blocksSynced y), a) else
      Ret (mkSyncer (UpdateStatus NOT_SYNCING s) h x b true true, a)
  else
    let s := match m_syncStatus s with PROCESSING_TXHASHSET => s | _ => UpdateStatus WAITING_FOR_PEERS s end in
    Ret (mkSyncer s (y_headers y) (y_state y) (y_blocks y) (y_headersSynced y) (y_blocksSynced y), []).
Fixpoint sync_turns (ws : list world) (y : Syncer) : outcome (Syncer * list action) :=
  match ws with
  | [] => Ret (y, [])
  | w :: ws' =>
    let* r := sync_turn w y in
    let* r' := sync_turns ws' (fst r) in
    Ret (fst r', snd r ++ snd r')
  end.
(** Syncer.cpp:54-59. *)
Definition Syncer_start (now : Z) : Syncer :=
  mkSyncer (mkStatus SYNCING_HEADERS 0 0 0 0 0) (mkHS now 0 None false) (mkSS now 0 None) (mkBS 0 [] []) false false.
