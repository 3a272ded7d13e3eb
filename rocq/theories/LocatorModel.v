(** Model of how nodes ask each other for headers: src/P2P/BlockLocator.cpp, the GetHeaders and Headers
    cases of src/P2P/MessageProcessor.cpp and RequestHeaders of src/P2P/Sync/HeaderSyncer.cpp. The
    messages that carry locators and headers are in MessageModel; choice of the peer, timeouts and bans
    are left out. *)
From Verif Require Import Base Bytes FileModel CodecModel ConsensusModel CuckooModel HeaderModel.
Local Open Scope N_scope.

(** include/P2P/Common.h:25, 34. *)
Definition MAX_BLOCK_HEADERS : N := 512.
Definition MAX_LOCATORS : N := 20.

(** BlockLocator.cpp:25-52: GetLocatorHeights. The loop ends after MAX_LOCATORS - 1 turns; std::pow of 2 and an
    exponent below 20 is exact. *)
Fixpoint locator_loop (turns : nat) (current : N) (heights : list N) : list N :=
  match turns with
  | O => heights
  | S n =>
    if 0 <? current then
      let heights' := heights ++ [current] in
      if MAX_LOCATORS - 1 <=? nlen heights' then heights' else
      let next := 2 ^ nlen heights' in
      if next <? current then locator_loop n (current - next) heights' else heights'
    else heights
  end.
Definition GetLocatorHeights (headerHeight : N) : list N := locator_loop (N.to_nat MAX_LOCATORS) headerHeight [] ++ [0].

(** src/BlockChain/ChainState.cpp:120-129 with Chain.cpp:47-55: GetBlockHeaderByHeight(CANDIDATE). *)
Definition GetBlockHeaderByHeight (s : cstate) (height : N) : option BlockHeader :=
  match nth_error (now_ (s_candidate s)) (N.to_nat height) with Some hash => GetBlockHeader s hash | None => None end.
(** src/BlockChain/ChainState.cpp:71-78: the header height of the sync status, just updated. *)
Definition HeaderHeight (s : cstate) : N :=
  match GetBlockHeader s (tip_hash (now_ (s_candidate s))) with Some h => h_height h | None => 0 end.
(** BlockLocator.cpp:6-22: GetLocators. *)
Definition GetLocators (s : cstate) (headerHeight : N) : list bytes :=
  flat_map (fun height => match GetBlockHeaderByHeight s height with Some h => [BlockHeader_GetHash h] | None => [] end)
    (GetLocatorHeights headerHeight).

(** BlockLocator.cpp:79-91: FindCommonHeader. *)
Fixpoint FindCommonHeader (s : cstate) (locatorHashes : list bytes) : option BlockHeader :=
  match locatorHashes with
  | [] => None
  | hash :: rest => match GetBlockHeader s hash with Some h => Some h | None => FindCommonHeader s rest end
  end.
(** BlockLocator.cpp:64-73: the loop of LocateHeaders from [height]. *)
Fixpoint take_headers (s : cstate) (count : nat) (height : N) : list BlockHeader :=
  match count with
  | O => []
  | S n => match GetBlockHeaderByHeight s height with Some h => h :: take_headers s n (add64 height 1) | None => [] end
  end.
(** BlockLocator.cpp:54-77: LocateHeaders. *)
Definition LocateHeaders (s : cstate) (locatorHashes : list bytes) : list BlockHeader :=
  match FindCommonHeader s locatorHashes with
  | None => []
  | Some pCommonHeader =>
    let totalHeight := sub64 (nlen (now_ (s_candidate s))) 1 in
    let headerHeight := h_height pCommonHeader in
    let numHeadersToSend := N.min (sub64 totalHeight headerHeight) MAX_BLOCK_HEADERS in
    take_headers s (N.to_nat numHeadersToSend) (add64 headerHeight 1)
  end.

(** One round: node [s] asks node [r] for headers (HeaderSyncer.cpp:83-111, MessageProcessor.cpp:176-186) and processes
    the answer (MessageProcessor.cpp:209-222). *)
Definition Ask (s r : cstate) : list BlockHeader := LocateHeaders r (GetLocators s (HeaderHeight s)).
Definition SyncRound Blake2b BAD_BLOCKS env pow_keys (now : Z) (r s : cstate) : outcome EBlockChainStatus * cstate :=
  ProcessSyncHeaders Blake2b BAD_BLOCKS env pow_keys now (Ask s r) s.
