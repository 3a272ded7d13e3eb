(** Model of the peers a node knows and of its connections: whom it connects to, whom it accepts, whom it bans, whom it recommends, and how
    connections end (src/P2P/Seed/PeerManager.cpp, src/P2P/Seed/Seeder.cpp, src/P2P/Connection.cpp, include/P2P/Peer.h). *)
From Verif Require Import Base.
Local Open Scope N_scope.

(** include/P2P/Common.h: BAN_WINDOW and RETRY_WINDOW, in seconds; PeerManager.cpp:77: 7 days. *)
Definition BAN_WINDOW : Z := 10800.
Definition RETRY_WINDOW : Z := 300.
Definition FORGET_WINDOW : Z := 604800.
(** include/P2P/Capabilities.h:12-28. *)
Definition UNKNOWN : N := 0.
Definition FAST_SYNC_NODE : N := 6.
(** 42: HasCapability. *)
Definition HasCapability (value capability : N) : bool := N.land value capability =? capability.

(** * Peers *)
(** include/P2P/Peer.h and PeerEntry (PeerManager.h): a peer and the time of the last attempt to connect to it. Times are seconds. The
    version, the user agent and the reason of a ban are left out; the fields are atomics, each step here is one method. *)
Record peer := mkPeer { p_addr : N; p_dirty : bool; p_connected : bool; p_capabilities : N; p_lastContact : Z; p_lastBan : Z; p_lastAttempt : Z }.
(** Peer.h:24-37 and the default of PeerEntry. *)
Definition new_peer (addr : N) : peer := mkPeer addr false false UNKNOWN 0 0 0.
Definition SetConnected (b : bool) (p : peer) : peer := mkPeer (p_addr p) true b (p_capabilities p) (p_lastContact p) (p_lastBan p) (p_lastAttempt p).
Definition UpdateLastContactTime (now : Z) (p : peer) : peer := mkPeer (p_addr p) (p_dirty p) (p_connected p) (p_capabilities p) now (p_lastBan p) (p_lastAttempt p).
Definition UpdateCapabilities (c : N) (p : peer) : peer := mkPeer (p_addr p) (p_dirty p) (p_connected p) c (p_lastContact p) (p_lastBan p) (p_lastAttempt p).
(** UpdateVersion: only its effect on [dirty]. *)
Definition SetDirty (b : bool) (p : peer) : peer := mkPeer (p_addr p) b (p_connected p) (p_capabilities p) (p_lastContact p) (p_lastBan p) (p_lastAttempt p).
Definition Ban (now : Z) (p : peer) : peer := mkPeer (p_addr p) true (p_connected p) (p_capabilities p) (p_lastContact p) now (p_lastAttempt p).
Definition Unban (p : peer) : peer := mkPeer (p_addr p) true (p_connected p) (p_capabilities p) (p_lastContact p) 0 (p_lastAttempt p).
Definition SetAttempt (now : Z) (p : peer) : peer := mkPeer (p_addr p) (p_dirty p) (p_connected p) (p_capabilities p) (p_lastContact p) (p_lastBan p) now.
(** 135-139: IsBanned. *)
Definition IsBanned (now : Z) (p : peer) : bool := (now - BAN_WINDOW <? p_lastBan p)%Z.

(** m_peersByAddress: a std::map, here a list in the order of addresses. *)
Definition find_peer (a : N) (ps : list peer) : option peer := find (fun p => p_addr p =? a) ps.
Definition modify (a : N) (f : peer -> peer) (ps : list peer) : list peer := map (fun p => if p_addr p =? a then f p else p) ps.
Fixpoint emplace (p : peer) (ps : list peer) : list peer :=
  match ps with
  | [] => [p]
  | q :: ps' => if p_addr p <? p_addr q then p :: q :: ps' else if p_addr p =? p_addr q then q :: ps' else q :: emplace p ps'
  end.

(** PeerManager.cpp:111-121: GetPeer (not const). *)
Definition GetPeer (a : N) (ps : list peer) : list peer := match find_peer a ps with Some _ => ps | None => emplace (new_peer a) ps end.
(** 190-198: AddFreshPeers. *)
Definition AddFreshPeers (addrs : list N) (ps : list peer) : list peer := fold_left (fun ps a => GetPeer a ps) addrs ps.
(** 200-210: BanPeer. *)
Definition BanPeer (now : Z) (a : N) (ps : list peer) : list peer :=
  match find_peer a ps with Some _ => modify a (Ban now) ps | None => emplace (SetAttempt now (Ban now (new_peer a))) ps end.
(** 212-218: UnbanPeer. *)
Definition UnbanPeer (a : N) (ps : list peer) : list peer := modify a Unban ps.
(** 67-110: Thread_ManagePeers. What it writes to the database is left out: PeerDBImpl.cpp:36 deletes the database whenever it is opened. *)
Definition ManagePeers (now : Z) (ps : list peer) : list peer :=
  map (SetDirty false) (filter (fun p => (p_dirty p || negb ((0 <? p_lastContact p)%Z && (p_lastContact p <? now - FORGET_WINDOW)%Z))%bool) ps).

(** 242-263: the loop of GetPeersWithCapability; [pos] is the iterator, [length ps] its end. [continue] in line 251 skips the increment in
    line 262. *)
Fixpoint search (rounds : nat) (capability : N) (maxPeers : nat) (connecting : bool) (now : Z) (pos : nat) (found : list N) (ps : list peer) : list N * list peer :=
  match rounds with
  | O => (found, ps)
  | S rounds' =>
    let pos := if Nat.eqb pos (length ps) then O else pos in
    match nth_error ps pos with
    | None => (found, ps)
    | Some p =>
      if (connecting && IsBanned now p)%bool then search rounds' capability maxPeers connecting now pos found ps else
      if HasCapability (p_capabilities p) capability then
        let '(found, ps) :=
          if negb connecting then (found ++ [p_addr p], ps) else
          if (negb (p_connected p) && (RETRY_WINDOW <? now - p_lastAttempt p)%Z)%bool then (found ++ [p_addr p], modify (p_addr p) (SetAttempt now) ps) else
          (found, ps) in
        if Nat.eqb (length found) maxPeers then (found, ps) else search rounds' capability maxPeers connecting now (S pos) found ps
      else search rounds' capability maxPeers connecting now (S pos) found ps
    end
  end.
(** 220-265: GetPeersWithCapability. GenerateRandom(0, numPeers) may be numPeers. *)
Definition GetPeersWithCapability (capability : N) (maxPeers : nat) (connecting : bool) (now : Z) (random : nat) (ps : list peer) : list N * list peer :=
  search (length ps) capability maxPeers connecting now (random mod S (length ps))%nat [] ps.
(** 133-145: GetNewPeer, with the two random numbers it may draw. *)
Definition GetNewPeer (capability : N) (now : Z) (r1 r2 : nat) (ps : list peer) : option N * list peer :=
  match GetPeersWithCapability capability 1 true now r1 ps with
  | ([], ps) => match GetPeersWithCapability UNKNOWN 1 true now r2 ps with ([], ps) => (None, ps) | (a :: _, ps) => (Some a, ps) end
  | (a :: _, ps) => (Some a, ps)
  end.
(** 178-188: GetPeers. *)
Definition GetPeers (capability : N) (maxPeers : nat) (now : Z) (r1 r2 : nat) (ps : list peer) : list N :=
  match fst (GetPeersWithCapability capability maxPeers false now r1 ps) with
  | [] => fst (GetPeersWithCapability UNKNOWN maxPeers false now r2 ps)
  | l => l
  end.

(** * Connections *)
(** A connection, from the moment its thread is started: Connection.cpp. [k_up]: the handshake is done and it was added to the connection
    manager; [k_managed]: the connection manager still has it; [k_open]: the socket is open and a read is outstanding; [k_locked]: the
    thread that serves all connections waits for ever for the mutex of this one, which it holds. A connection reaches its peer by the address
    (the code: by a pointer, which differs only if the peer was forgotten, after seven days without a message, and met again).
    [m_receivingDisabled] is taken to be false; Connection.h:41-49 leaves it without a value. *)
Record link := mkLink { k_addr : N; k_outbound : bool; k_up : bool; k_managed : bool; k_open : bool; k_terminate : bool; k_locked : bool; k_received : Z }.

(** The node. [n_listening]: an async_accept is outstanding. [n_asio], [n_seed]: the threads Thread_AsioContext and Thread_Seed are not
    blocked for ever. *)
Record node := mkNode { n_peers : list peer; n_links : list link; n_listening : bool; n_asio : bool; n_seed : bool; n_usedDNS : bool }.
Definition set_peers (ps : list peer) (n : node) : node := mkNode ps (n_links n) (n_listening n) (n_asio n) (n_seed n) (n_usedDNS n).
Definition set_links (ls : list link) (n : node) : node := mkNode (n_peers n) ls (n_listening n) (n_asio n) (n_seed n) (n_usedDNS n).
Definition set_listening (b : bool) (n : node) : node := mkNode (n_peers n) (n_links n) b (n_asio n) (n_seed n) (n_usedDNS n).
Definition set_asio (b : bool) (n : node) : node := mkNode (n_peers n) (n_links n) (n_listening n) b (n_seed n) (n_usedDNS n).
Definition set_seed (b : bool) (n : node) : node := mkNode (n_peers n) (n_links n) (n_listening n) (n_asio n) b (n_usedDNS n).
Definition set_usedDNS (b : bool) (n : node) : node := mkNode (n_peers n) (n_links n) (n_listening n) (n_asio n) (n_seed n) b.
Fixpoint set_nth {A} (i : nat) (x : A) (l : list A) : list A := match l, i with [], _ => [] | _ :: l', O => x :: l' | y :: l', S i' => y :: set_nth i' x l' end.
Definition set_link (i : nat) (k : link) (n : node) : node := set_links (set_nth i k (n_links n)) n.

Definition banned_addr (now : Z) (a : N) (n : node) : bool := match find_peer a (n_peers n) with Some p => IsBanned now p | None => false end.
(** ConnectionManager.h:25: GetNumberOfActiveConnections. *)
Definition num_connections (n : node) : N := N.of_nat (length (filter k_managed (n_links n))).
(** Connection.cpp:32-50: IsConnectionActive. *)
Definition active (now : Z) (n : node) (k : link) : bool :=
  (negb (k_terminate k) && negb (k_received k + 60 <? now)%Z && negb (banned_addr now (k_addr k) n) && k_open k)%bool.
(** ConnectionManager.cpp:66-77: IsConnected. *)
Definition IsConnected (now : Z) (a : N) (n : node) : bool := existsb (fun k => (k_managed k && (k_addr k =? a) && active now n k)%bool) (n_links n).

(** How the processing of a message ends (MessageProcessor.cpp:65-103): normally or with a BlockChainException; with a BadDataException or a
    handler that calls BanPeer; with a DeserializationException; with another exception. *)
Inductive processed := Fine | BadData | BadBody | OtherException.

(** What can happen. The number is the position of the connection. *)
Inductive op :=
| Arrives (addr : N)                                      (* a connection from outside *)
| AcceptFails                                             (* async_accept reports an error *)
| SeedNew (r1 r2 : nat) (dns : list N)                    (* Thread_Seed wants another connection *)
| HandshakeDone (i : nat) (ok : bool) (capabilities : N)
| Message (i : nat) (result : processed)
| ReadFails (i : nat)
| Examine (i : nat)                                       (* PruneConnections comes to this connection; C58 has the loop *)
| RateLimit (i : nat)                                     (* CheckPing finds more than 500 messages a minute *)
| ApiBan (addr : N)
| ApiUnban (addr : N)
| PeerAddrs (addrs : list N)                              (* a peer sends addresses *)
| AskedForPeers (capability : N) (r1 r2 : nat)
| Manage
| Restart.

(** What can be seen from outside. *)
Inductive act :=
| Accepted (addr : N)            (* a connection from outside is served *)
| Attempted (addr : N)           (* a connection is tried *)
| Connected (addr : N)
| Processed (addr : N)           (* a message of this peer is acted on *)
| Recommended (addrs : list N).

Section Node.
(** Core/Config.cpp:153-169 and GetMaxPeers. *)
Variables (allowed blocked preferred : list N) (maxPeers : N).
Definition listed (a : N) (l : list N) : bool := existsb (N.eqb a) l.
Definition IsPeerAllowed (a : N) : bool := match allowed with [] => true | _ => listed a allowed end.
Definition IsPeerBlocked (a : N) : bool := listed a blocked.
Definition IsPeerPreferred (a : N) : bool := match preferred with [] => true | _ => listed a preferred end.

(** PeerManager.cpp:24-65: Create. The database is empty (PeerDBImpl.cpp:36). *)
Definition start : node := mkNode (AddFreshPeers preferred []) [] true true true false.

(** Seeder.cpp:122-163: Accept. *)
Definition Accept (now : Z) (a : N) (n : node) : node * list act :=
  if (negb (n_listening n) || negb (n_asio n))%bool then (n, []) else
  if negb (num_connections n <? maxPeers) then (n, []) else
  if IsPeerBlocked a then (set_listening false n, []) else
  if negb (IsPeerAllowed a) then (set_listening false n, []) else
  let n := set_peers (GetPeer a (n_peers n)) n in
  if banned_addr now a n then (n, []) else
  (set_links (n_links n ++ [mkLink a false false false true false false now]) n, [Accepted a]).
(** 165-211: SeedNewConnection. *)
Definition SeedNewConnection (now : Z) (r1 r2 : nat) (dns : list N) (n : node) : node * list act :=
  if negb (n_seed n) then (n, []) else
  match GetNewPeer FAST_SYNC_NODE now r1 r2 (n_peers n) with
  | (Some a, ps) =>
    let n := set_peers ps n in
    if IsPeerBlocked a then (n, []) else
    if negb (IsPeerAllowed a) then (n, []) else
    if negb (IsPeerPreferred a) then (n, []) else
    (set_links (n_links n ++ [mkLink a true false false true false false now]) n, [Attempted a])
  | (None, ps) =>
    let n := set_peers ps n in
    if n_usedDNS n then (n, []) else (set_usedDNS true (set_peers (AddFreshPeers dns (n_peers n)) n), [])
  end.
(** Connection.cpp:21-30: Disconnect, with the mutex free. *)
Definition Disconnect (i : nat) (k : link) (n : node) : node :=
  if k_terminate k then n else
  set_link i (mkLink (k_addr k) (k_outbound k) (k_up k) (k_managed k) false true (k_locked k) (k_received k))
    (set_peers (modify (k_addr k) (SetConnected false) (n_peers n)) n).
(** 75-112: Thread_Connect, from the start of the handshake (HandShake.cpp:30-87, 138). If it throws, the connection is destroyed
    (Connection.h:54: Disconnect). An outbound connection needs the thread that calls HandleConnected; AddConnection needs the lock that a
    blocked Thread_Seed holds. *)
Definition Thread_Connect (now : Z) (i : nat) (ok : bool) (caps : N) (n : node) : node * list act :=
  match nth_error (n_links n) i with
  | None => (n, [])
  | Some k =>
    if (k_up k || k_terminate k)%bool then (n, []) else
    if (negb ok || (k_outbound k && negb (n_asio n)))%bool then (Disconnect i k n, []) else
    let n := set_peers (modify (k_addr k) (UpdateLastContactTime now) (n_peers n)) n in
    if (negb (k_outbound k) && IsConnected now (k_addr k) n)%bool then (Disconnect i k n, []) else
    let n := set_peers (modify (k_addr k) (fun p => SetConnected true (UpdateCapabilities caps p)) (n_peers n)) n in
    if negb (n_seed n) then (n, []) else
    (set_link i (mkLink (k_addr k) (k_outbound k) true true true false (k_locked k) now) n, [Connected (k_addr k)])
  end.
(** 171-173, 217-219. *)
Definition Close (i : nat) (k : link) (n : node) : node :=
  set_link i (mkLink (k_addr k) (k_outbound k) (k_up k) (k_managed k) false (k_terminate k) (k_locked k) (k_received k))
    (set_peers (modify (k_addr k) (SetConnected false) (n_peers n)) n).
(** 144-220: a whole message arrives. Thread_AsioContext is the only thread that runs this. 272-277: BanPeer. *)
Definition HandleReceived (now : Z) (i : nat) (result : processed) (n : node) : node * list act :=
  match nth_error (n_links n) i with
  | None => (n, [])
  | Some k =>
    if (negb (n_asio n) || negb (k_up k) || negb (k_open k))%bool then (n, []) else
    let k := mkLink (k_addr k) (k_outbound k) (k_up k) (k_managed k) (k_open k) (k_terminate k) (k_locked k) now in
    let n := set_link i k (set_peers (modify (k_addr k) (UpdateLastContactTime now) (n_peers n)) n) in
    match result with
    | Fine => (n, [Processed (k_addr k)])
    | BadData => (set_link i (mkLink (k_addr k) (k_outbound k) (k_up k) (k_managed k) (k_open k) true (k_locked k) now)
                    (set_peers (modify (k_addr k) (Ban now) (n_peers n)) n), [Processed (k_addr k)])
    | BadBody => (set_asio false (set_link i (mkLink (k_addr k) (k_outbound k) (k_up k) (k_managed k) (k_open k) (k_terminate k) true now) n), [])
    | OtherException => (Close i k n, [Processed (k_addr k)])
    end
  end.
Definition HandleError (i : nat) (n : node) : node :=
  match nth_error (n_links n) i with
  | Some k => if (negb (n_asio n) || negb (k_up k) || negb (k_open k))%bool then n else Close i k n
  | None => n
  end.
(** ConnectionManager.cpp:196-206: one connection in PruneConnections(true), which holds the lock of the connections. *)
Definition Prune (now : Z) (i : nat) (n : node) : node :=
  match nth_error (n_links n) i with
  | None => n
  | Some k =>
    if (negb (n_seed n) || negb (k_managed k) || active now n k)%bool then n else
    if k_locked k then set_seed false n else
    let n := Disconnect i k n in
    match nth_error (n_links n) i with
    | Some k => set_link i (mkLink (k_addr k) (k_outbound k) (k_up k) false (k_open k) (k_terminate k) (k_locked k) (k_received k)) n
    | None => n
    end
  end.
(** Connection.cpp:222-234: CheckPing. *)
Definition CheckPing (now : Z) (i : nat) (n : node) : node :=
  match nth_error (n_links n) i with
  | Some k => if (k_managed k && k_open k && negb (k_locked k) && n_seed n)%bool then set_peers (modify (k_addr k) (Ban now) (n_peers n)) n else n
  | None => n
  end.

(** One event at the time [now]. P2PServerImpl.cpp:131-139 for the API, MessageProcessor.cpp:143-169 for addresses. *)
Definition step (now : Z) (o : op) (n : node) : node * list act :=
  match o with
  | Arrives a => Accept now a n
  | AcceptFails => (set_listening false n, [])
  | SeedNew r1 r2 dns => SeedNewConnection now r1 r2 dns n
  | HandshakeDone i ok caps => Thread_Connect now i ok caps n
  | Message i r => HandleReceived now i r n
  | ReadFails i => (HandleError i n, [])
  | Examine i => (Prune now i n, [])
  | RateLimit i => (CheckPing now i n, [])
  | ApiBan a => (set_peers (BanPeer now a (n_peers n)) n, [])
  | ApiUnban a => (set_peers (UnbanPeer a (n_peers n)) n, [])
  | PeerAddrs addrs => (set_peers (AddFreshPeers addrs (n_peers n)) n, [])
  | AskedForPeers c r1 r2 => (n, [Recommended (GetPeers c 256 now r1 r2 (n_peers n))])
  | Manage => (set_peers (ManagePeers now (n_peers n)) n, [])
  | Restart => (start, [])
  end.
Fixpoint run (h : list (Z * op)) (n : node) : node * list (Z * act) :=
  match h with
  | [] => (n, [])
  | (now, o) :: h' => let '(n1, a1) := step now o n in let '(n2, a2) := run h' n1 in (n2, map (fun a => (now, a)) a1 ++ a2)
  end.
End Node.
