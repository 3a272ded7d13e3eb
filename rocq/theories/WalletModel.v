(** Model of the wallet: its coins and transactions, coin selection, sending, receiving, finalizing,
    cancelling, refreshing and the balance.
    src/Wallet/SlateBuilder/{CoinSelection,SendSlateBuilder,ReceiveSlateBuilder,FinalizeSlateBuilder}.cpp,
    src/Wallet/SlateBuilder/OutputBuilder.h, src/Wallet/{WalletImpl,Wallet,WalletRefresher,CancelTx}.cpp,
    include/Wallet/WalletUtil.h, include/Core/Util/FeeUtil.h and the wallet database tables. *)
From Verif Require Import Base Bytes FileModel CodecModel ConsensusModel ValidationModel KeyPathModel.
Local Open Scope N_scope.

(** include/Wallet/Enums/OutputStatus.h:5-13 *)
Inductive EOutputStatus := SPENDABLE | IMMATURE | NO_CONFIRMATIONS | SPENT | LOCKED | CANCELED.
Definition status_eqb (a b : EOutputStatus) : bool :=
  match a, b with
  | SPENDABLE, SPENDABLE | IMMATURE, IMMATURE | NO_CONFIRMATIONS, NO_CONFIRMATIONS
  | SPENT, SPENT | LOCKED, LOCKED | CANCELED, CANCELED => true
  | _, _ => false
  end.

(** include/Wallet/WalletTxType.h *)
Inductive EWalletTxType :=
| COINBASE | SENT | RECEIVED | SENT_CANCELED | RECEIVED_CANCELED | SENDING_STARTED
| RECEIVING_IN_PROGRESS | SENDING_FINALIZED.

(** include/Wallet/WalletDB/Models/OutputDataEntity.h. Simplification: the blinding factor and the
    range proof are left out (ExchangeModel.v has the keys), as are the MMR index and the labels. *)
Record OutputDataEntity := mkCoin {
  c_path : KeyChainPath;
  c_features : N;
  c_commitment : bytes;
  c_amount : N;              (* uint64 *)
  c_status : EOutputStatus;
  c_height : option N;       (* block height *)
  c_tx : option N            (* wallet transaction id *)
}.
(** OutputDataEntity.h SetStatus, SetBlockHeight, SetWalletTxId *)
Definition SetStatus (s : EOutputStatus) (c : OutputDataEntity) : OutputDataEntity :=
  mkCoin (c_path c) (c_features c) (c_commitment c) (c_amount c) s (c_height c) (c_tx c).
Definition SetBlockHeight (h : N) (c : OutputDataEntity) : OutputDataEntity :=
  mkCoin (c_path c) (c_features c) (c_commitment c) (c_amount c) (c_status c) (Some h) (c_tx c).
Definition SetWalletTxId (i : N) (c : OutputDataEntity) : OutputDataEntity :=
  mkCoin (c_path c) (c_features c) (c_commitment c) (c_amount c) (c_status c) (c_height c) (Some i).

(** include/Wallet/WalletTx.h. The attached transaction is represented by the commitments of its inputs
    and of its outputs. Simplification: times, addresses, payment proofs and messages are left out. *)
Record WalletTx := mkWalletTx {
  w_id : N;                              (* uint32 *)
  w_type : EWalletTxType;
  w_slate : option bytes;                (* slate id *)
  w_height : option N;                   (* confirmed height *)
  w_credited : N;
  w_debited : N;
  w_fee : option Fee;
  w_tx : option (list bytes * list bytes)
}.
(** WalletTx.h SetType, SetConfirmedHeight, SetTransaction *)
Definition SetType (y : EWalletTxType) (t : WalletTx) : WalletTx :=
  mkWalletTx (w_id t) y (w_slate t) (w_height t) (w_credited t) (w_debited t) (w_fee t) (w_tx t).
Definition SetConfirmedHeight (h : N) (t : WalletTx) : WalletTx :=
  mkWalletTx (w_id t) (w_type t) (w_slate t) (Some h) (w_credited t) (w_debited t) (w_fee t) (w_tx t).
Definition SetTransaction (x : list bytes * list bytes) (t : WalletTx) : WalletTx :=
  mkWalletTx (w_id t) (w_type t) (w_slate t) (w_height t) (w_credited t) (w_debited t) (w_fee t) (Some x).

(** include/Wallet/Models/Slate/SlateStage.h *)
Inductive ESlateStage := STANDARD_SENT | STANDARD_RECEIVED | STANDARD_FINALIZED.
Definition stage_eqb (a b : ESlateStage) : bool :=
  match a, b with
  | STANDARD_SENT, STANDARD_SENT | STANDARD_RECEIVED, STANDARD_RECEIVED
  | STANDARD_FINALIZED, STANDARD_FINALIZED => true
  | _, _ => false
  end.

(** include/Wallet/Models/Slate/Slate.h: the fields the wallet database reads back. A commitment is an
    input when it has no proof and an output when it has one (SlateCommitment.h). Simplification: the
    signatures and the offset are in ExchangeModel.v. *)
Record Slate := mkSlate {
  s_id : bytes;
  s_stage : ESlateStage;
  s_amount : N;
  s_fee : Fee;
  s_coms : list (bytes * bool)
}.
(** Slate.cpp:63-87 GetInputs, GetOutputs *)
Definition Slate_GetInputs (s : Slate) : list bytes := map fst (filter (fun c => negb (snd c)) (s_coms s)).
Definition Slate_GetOutputs (s : Slate) : list bytes := map fst (filter snd (s_coms s)).
(** Slate.cpp:89-99 AddInput *)
Definition AddInput (coms : list (bytes * bool)) (c : bytes) : list (bytes * bool) :=
  if existsb (fun p => bytes_eqb (fst p) c) coms then coms else coms ++ [(c, false)].
(** Slate.cpp:101-115 AddOutput: the first entry with the commitment gets the proof *)
Fixpoint set_proof (coms : list (bytes * bool)) (c : bytes) : list (bytes * bool) :=
  match coms with
  | [] => []
  | p :: r => if bytes_eqb (fst p) c then (fst p, true) :: r else p :: set_proof r c
  end.
Definition AddOutput (coms : list (bytes * bool)) (c : bytes) : list (bytes * bool) :=
  if existsb (fun p => bytes_eqb (fst p) c) coms then set_proof coms c else coms ++ [(c, true)].

(** include/Wallet/WalletDB/Models/SlateContextEntity.h, without the keys *)
Record SlateContext := mkContext { x_inputs : list OutputDataEntity; x_outputs : list OutputDataEntity }.

(** The wallet database: outputs, transactions, slate_contexts and slate tables and the metadata row
    (MetadataTable.cpp). Simplification: rows are listed in the order they were first written, which is
    the row-id order SQLite scans in as long as transaction ids grow. *)
Record WalletDB := mkDB {
  d_outputs : list OutputDataEntity;
  d_txs : list WalletTx;
  d_nextTx : N;                          (* uint32 *)
  d_refresh : N;                         (* uint64 *)
  d_accounts : accounts;
  d_contexts : list (bytes * SlateContext);
  d_slates : list Slate
}.
Definition set_outputs (o : list OutputDataEntity) (d : WalletDB) : WalletDB :=
  mkDB o (d_txs d) (d_nextTx d) (d_refresh d) (d_accounts d) (d_contexts d) (d_slates d).
Definition set_txs (t : list WalletTx) (d : WalletDB) : WalletDB :=
  mkDB (d_outputs d) t (d_nextTx d) (d_refresh d) (d_accounts d) (d_contexts d) (d_slates d).
Definition set_nextTx (n : N) (d : WalletDB) : WalletDB :=
  mkDB (d_outputs d) (d_txs d) n (d_refresh d) (d_accounts d) (d_contexts d) (d_slates d).
Definition set_refresh (h : N) (d : WalletDB) : WalletDB :=
  mkDB (d_outputs d) (d_txs d) (d_nextTx d) h (d_accounts d) (d_contexts d) (d_slates d).
Definition set_accounts (a : accounts) (d : WalletDB) : WalletDB :=
  mkDB (d_outputs d) (d_txs d) (d_nextTx d) (d_refresh d) a (d_contexts d) (d_slates d).

(** OutputsTable.cpp:48-80 AddOutputs, one row: insert, or replace the row with the same commitment *)
Definition save_output (l : list OutputDataEntity) (c : OutputDataEntity) : list OutputDataEntity :=
  if existsb (fun o => bytes_eqb (c_commitment o) (c_commitment c)) l
  then map (fun o => if bytes_eqb (c_commitment o) (c_commitment c) then c else o) l
  else l ++ [c].
Definition AddOutputs (cs : list OutputDataEntity) (d : WalletDB) : WalletDB :=
  set_outputs (fold_left save_output cs (d_outputs d)) d.
(** TransactionsTable.cpp:24-47 AddTransactions, one row: insert, or replace the row with the same id *)
Definition save_tx (l : list WalletTx) (t : WalletTx) : list WalletTx :=
  if existsb (fun u => w_id u =? w_id t) l
  then map (fun u => if w_id u =? w_id t then t else u) l
  else l ++ [t].
Definition AddTransaction (t : WalletTx) (d : WalletDB) : WalletDB := set_txs (save_tx (d_txs d) t) d.
(** WalletSqlite.cpp:122-131 GetNextTransactionId *)
Definition GetNextTransactionId (d : WalletDB) : N * WalletDB :=
  (d_nextTx d, set_nextTx ((d_nextTx d + 1) mod W32) d).
(** Wallet.cpp:77-89 GetTransactionBySlateId, WalletImpl.cpp:242-255 GetTxBySlateId *)
Definition tx_by_slate (id : bytes) (l : list WalletTx) : option WalletTx :=
  find (fun t => match w_slate t with Some s => bytes_eqb s id | None => false end) l.
(** SlateContextTable.cpp:28-46 SaveSlateContext: slate_id is the primary key, so a second row throws *)
Definition SaveSlateContext (id : bytes) (x : SlateContext) (d : WalletDB) : outcome WalletDB :=
  if existsb (fun p => bytes_eqb (fst p) id) (d_contexts d) then Throw
  else Ret (mkDB (d_outputs d) (d_txs d) (d_nextTx d) (d_refresh d) (d_accounts d)
                 (d_contexts d ++ [(id, x)]) (d_slates d)).
(** SlateContextTable.cpp:48-75 LoadSlateContext *)
Definition LoadSlateContext (id : bytes) (d : WalletDB) : option SlateContext :=
  match find (fun p => bytes_eqb (fst p) id) (d_contexts d) with Some p => Some (snd p) | None => None end.
(** SlateTable.cpp:63-83 SaveSlate: always inserts *)
Definition SaveSlate (s : Slate) (d : WalletDB) : WalletDB :=
  mkDB (d_outputs d) (d_txs d) (d_nextTx d) (d_refresh d) (d_accounts d) (d_contexts d) (d_slates d ++ [s]).
(** SlateTable.cpp:85-120 LoadSlate: the first row with the id and stage *)
Definition LoadSlate (id : bytes) (g : ESlateStage) (d : WalletDB) : option Slate :=
  find (fun s => bytes_eqb (s_id s) id && stage_eqb (s_stage s) g) (d_slates d).

(** what the node answers while an operation runs (INodeClient): GetChainHeight, GetTipHeader's height,
    GetOutputsByCommitment (block heights), and the outputs OutputRestorer::FindAndRewindOutputs found.
    Simplification: all answers within one operation come from one chain state, and
    FindAndRewindOutputs' own bookkeeping (restore_leaf_index) is left out. *)
Record NodeView := mkNode {
  n_height : N;
  n_tip : option N;
  n_location : bytes -> option N;
  n_restored : list OutputDataEntity
}.

(** FeeUtil.h:8-11 CalculateFee *)
Definition CalculateFee (feeBase numInputs numOutputs numKernels : N) : N :=
  mul64 feeBase (CalculateWeightV5 numInputs numOutputs numKernels).

(** std::accumulate over the amounts, in uint64: SendSlateBuilder.cpp:57-60, 112-115 *)
Definition sum64 (cs : list OutputDataEntity) : N := fold_left (fun s c => add64 s (c_amount c)) cs 0.

(** include/Wallet/Enums/SelectionStrategy.h:6-12 *)
Inductive ESelectionStrategy := SMALLEST | FEWEST_INPUTS | CUSTOM | ALL.

Section Wallet.
(** std::sort with OutputDataEntity::operator< (comparison of amounts); not stable, so any function
    returning an ordered rearrangement (hypothesis in the theorems) *)
Variable sort : list OutputDataEntity -> list OutputDataEntity.
(** Global::GetEnv, and Config::GetMinimumConfirmations *)
Variable env : Environment.
Variable min_confs : N.
(** the commitment KeyChain::DerivePrivateKey and Crypto::CommitBlinded give for a path and an amount *)
Variable commit_of : KeyChainPath -> N -> bytes.
(** whether the build defines NDEBUG (asserts compiled out) *)
Variable ndebug : bool.

(** the loop of CoinSelection.cpp:50-60 and 79-88: take coins until they cover amount and fee *)
Fixpoint take_coins (amount feeBase numOutputs numKernels : N)
    (coins selected : list OutputDataEntity) (amountFound : N) : outcome (list OutputDataEntity) :=
  match coins with
  | [] => Throw
  | coin :: rest =>
      let amountFound := add64 amountFound (c_amount coin) in
      let selected := selected ++ [coin] in
      let fee := CalculateFee feeBase (nlen selected) numOutputs numKernels in
      if add64 amount fee <=? amountFound then Ret selected
      else take_coins amount feeBase numOutputs numKernels rest selected amountFound
  end.
(** CoinSelection.cpp:38-65 *)
Definition SelectUsingSmallestInputs (coins : list OutputDataEntity) (amount feeBase numOutputs numKernels : N) :=
  take_coins amount feeBase numOutputs numKernels (sort coins) [] 0.
(** CoinSelection.cpp:67-92: sorting between reverse iterators leaves the largest amount first *)
Definition SelectUsingFewestInputs (coins : list OutputDataEntity) (amount feeBase numOutputs numKernels : N) :=
  take_coins amount feeBase numOutputs numKernels (rev (sort (rev coins))) [] 0.
(** CoinSelection.cpp:94-115 *)
Definition SelectUsingAllInputs (coins : list OutputDataEntity) (amount feeBase numOutputs numKernels : N)
    : outcome (list OutputDataEntity) :=
  let fee := CalculateFee feeBase (nlen coins) numOutputs numKernels in
  if amount <? add64 amount fee then Ret coins else Throw.
(** CoinSelection.cpp:117-145 *)
Definition SelectUsingCustomInputs (coins : list OutputDataEntity) (amount feeBase : N)
    (inputs : list bytes) (numOutputs numKernels : N) : outcome (list OutputDataEntity) :=
  let selected := filter (fun c => existsb (bytes_eqb (c_commitment c)) inputs) coins in
  let fee := CalculateFee feeBase (nlen selected) numOutputs numKernels in
  if add64 amount fee <=? sum64 selected then Ret selected else Throw.
(** CoinSelection.cpp:8-36 *)
Definition SelectCoinsToSpend (coins : list OutputDataEntity) (amount feeBase : N) (strategy : ESelectionStrategy)
    (inputs : list bytes) (numOutputs numKernels : N) : outcome (list OutputDataEntity) :=
  match strategy with
  | CUSTOM => SelectUsingCustomInputs coins amount feeBase inputs numOutputs numKernels
  | SMALLEST => SelectUsingSmallestInputs coins amount feeBase numOutputs numKernels
  | FEWEST_INPUTS => SelectUsingFewestInputs coins amount feeBase numOutputs numKernels
  | ALL => SelectUsingAllInputs coins amount feeBase numOutputs numKernels
  end.

(** WalletUtil.h:12-23 IsOutputImmature *)
Definition IsOutputImmature (features output_height current_height : N) : bool :=
  if features =? COINBASE_OUTPUT then GetMaxCoinbaseHeight env current_height <=? output_height
  else current_height <? add64 output_height min_confs.
Definition height_or_0 (c : OutputDataEntity) : N := match c_height c with Some h => h | None => 0 end.

(** WalletBalanceDTO.h *)
Record WalletBalance := mkBalance {
  bal_height : N; bal_unconfirmed : N; bal_immature : N; bal_locked : N; bal_spendable : N
}.
(** WalletBalanceDTO.h:23 GetTotal *)
Definition GetTotal (b : WalletBalance) : N :=
  add64 (add64 (bal_unconfirmed b) (bal_immature b)) (bal_spendable b).
(** the loop bodies of WalletImpl.cpp:71-89 and Wallet.cpp:43-61. (The missing else before the last test in
    Wallet.cpp changes nothing: one status equals only one constant.) *)
Definition balance_step (current_height : N) (b : WalletBalance) (c : OutputDataEntity) : WalletBalance :=
  match c_status c with
  | LOCKED => mkBalance (bal_height b) (bal_unconfirmed b) (bal_immature b) (add64 (bal_locked b) (c_amount c)) (bal_spendable b)
  | SPENDABLE =>
      if IsOutputImmature (c_features c) (height_or_0 c) current_height
      then mkBalance (bal_height b) (bal_unconfirmed b) (add64 (bal_immature b) (c_amount c)) (bal_locked b) (bal_spendable b)
      else mkBalance (bal_height b) (bal_unconfirmed b) (bal_immature b) (bal_locked b) (add64 (bal_spendable b) (c_amount c))
  | NO_CONFIRMATIONS => mkBalance (bal_height b) (add64 (bal_unconfirmed b) (c_amount c)) (bal_immature b) (bal_locked b) (bal_spendable b)
  | _ => b
  end.
Definition balance_of (outputs : list OutputDataEntity) (current_height : N) : WalletBalance :=
  fold_left (balance_step current_height) outputs (mkBalance current_height 0 0 0 0).
(** Wallet.cpp:35-70 GetBalance *)
Definition Wallet_GetBalance (d : WalletDB) : WalletBalance := balance_of (d_outputs d) (d_refresh d).

(** WalletRefresher.cpp:230-242 FindOutput *)
Definition FindOutput (l : list OutputDataEntity) (c : bytes) : option OutputDataEntity :=
  find (fun o => bytes_eqb c (c_commitment o)) l.
(** WalletRefresher.cpp:76-102 FindNewOutputs *)
Definition FindNewOutputs (nv : NodeView) (walletOutputs : list OutputDataEntity) : list OutputDataEntity :=
  filter (fun r => negb (status_eqb (c_status r) SPENT) &&
                   match FindOutput walletOutputs (c_commitment r) with None => true | Some _ => false end)
         (n_restored nv).
(** WalletRefresher.cpp:36-64: each new output gets a transaction of its own; returns the outputs with
    their transaction ids, the new transactions, and the database *)
Fixpoint add_new_outputs (new : list OutputDataEntity) (d : WalletDB)
    : list OutputDataEntity * list WalletTx * WalletDB :=
  match new with
  | [] => ([], [], d)
  | o :: rest =>
      let '(i, d1) := GetNextTransactionId d in
      let t := mkWalletTx i RECEIVED None (c_height o) (c_amount o) 0 None None in
      let o' := SetWalletTxId i o in
      let d2 := AddTransaction t (AddOutputs [o'] d1) in
      let '(os, ts, d3) := add_new_outputs rest d2 in
      (o' :: os, t :: ts, d3)
  end.
(** WalletRefresher.cpp:117-153, one output: its new value when it changes *)
Definition refresh_output (nv : NodeView) (o : OutputDataEntity) : option OutputDataEntity :=
  match n_location nv (c_commitment o) with
  | Some h =>
      match c_status o with
      | LOCKED | SPENDABLE => None
      | _ => Some (SetStatus SPENDABLE (SetBlockHeight h o))
      end
  | None =>
      match c_status o with
      | NO_CONFIRMATIONS | SPENT | CANCELED => None
      | _ => Some (SetStatus SPENT o)
      end
  end.
(** WalletRefresher.cpp:104-156 RefreshOutputs: the refreshed list and the database *)
Fixpoint refresh_loop (nv : NodeView) (outs : list OutputDataEntity) (d : WalletDB) : list OutputDataEntity * WalletDB :=
  match outs with
  | [] => ([], d)
  | o :: rest =>
      let '(o', d1) := match refresh_output nv o with
                       | Some o' => (o', AddOutputs [o'] d)
                       | None => (o, d)
                       end in
      let '(rest', d2) := refresh_loop nv rest d1 in
      (o' :: rest', d2)
  end.
Definition RefreshOutputs (nv : NodeView) (outs : list OutputDataEntity) (d : WalletDB) : list OutputDataEntity * WalletDB :=
  let '(outs', d1) := refresh_loop nv outs d in
  (outs', set_refresh (n_height nv) d1).
(** WalletRefresher.cpp:164-192, one output; the transactions looked up are those read before *)
Definition confirm_tx (txs : list WalletTx) (o : OutputDataEntity) : option WalletTx :=
  match c_tx o, c_height o with
  | Some i, Some h =>
      match find (fun t => w_id t =? i) txs with
      | Some t =>
          match w_type t with
          | RECEIVING_IN_PROGRESS => Some (SetType RECEIVED (SetConfirmedHeight h t))
          | SENDING_FINALIZED => Some (SetType SENT (SetConfirmedHeight h t))
          | _ => None
          end
      | None => None
      end
  | _, _ => None
  end.
(** WalletRefresher.cpp:194-211, one transaction: only the first of its outputs that is the wallet's counts *)
Definition sent_tx (outs : list OutputDataEntity) (t : WalletTx) : option WalletTx :=
  match w_tx t, w_type t with
  | Some x, SENDING_FINALIZED =>
      match find (fun c => match FindOutput outs c with Some _ => true | None => false end) (snd x) with
      | Some c =>
          match FindOutput outs c with
          | Some o => if status_eqb (c_status o) SPENT then Some (SetType SENT t) else None
          | None => None
          end
      | None => None
      end
  | _, _ => None
  end.
Definition add_tx_opt (d : WalletDB) (t : option WalletTx) : WalletDB :=
  match t with Some t => AddTransaction t d | None => d end.
(** WalletRefresher.cpp:158-212 RefreshTransactions *)
Definition RefreshTransactions (outs : list OutputDataEntity) (txs : list WalletTx) (d : WalletDB) : WalletDB :=
  let d1 := fold_left add_tx_opt (map (confirm_tx txs) outs) d in
  fold_left add_tx_opt (map (sent_tx outs) txs) d1.
(** WalletRefresher.cpp:19-74 Refresh *)
Definition Refresh (nv : NodeView) (d : WalletDB) : list OutputDataEntity * WalletDB :=
  if n_height nv <? d_refresh d then ([], d)
  else
    let '(os, ts, d1) := add_new_outputs (FindNewOutputs nv (d_outputs d)) d in
    let '(outs, d2) := RefreshOutputs nv (d_outputs d ++ os) d1 in
    (outs, RefreshTransactions outs (d_txs d ++ ts) d2).

(** WalletImpl.cpp:61-97 GetBalance: over what the refresh returned, at the stored refresh height *)
Definition WalletImpl_GetBalance (nv : NodeView) (d : WalletDB) : WalletBalance * WalletDB :=
  let '(outs, d') := Refresh nv d in (balance_of outs (d_refresh d'), d').

(** WalletImpl.cpp:115-123, the coins kept *)
Definition is_available (tip : N) (o : OutputDataEntity) : bool :=
  status_eqb (c_status o) SPENDABLE && negb (IsOutputImmature (c_features o) (height_or_0 o) tip).
(** WalletImpl.cpp:104-128 GetAllAvailableCoins; the refresh is stored even when what follows fails *)
Definition GetAllAvailableCoins (nv : NodeView) (d : WalletDB) : outcome (list OutputDataEntity) * WalletDB :=
  match n_tip nv with
  | None => (Throw, d)
  | Some tip => let '(outs, d') := Refresh nv d in (Ret (filter (is_available tip) outs), d')
  end.

(** WalletImpl.cpp:130-161 CreateBlindedOutput *)
Definition CreateBlindedOutput (amount : N) (path : KeyChainPath) (walletTxId : N) : OutputDataEntity :=
  mkCoin path 0 (commit_of path amount) amount NO_CONFIRMATIONS None (Some walletTxId).
(** OutputBuilder.h:24-28, the amount of output [i] *)
Definition change_amount (totalAmount numOutputs : N) (i : nat) : N :=
  let coinAmount := totalAmount / numOutputs in
  if Nat.eqb i 0 then add64 coinAmount (totalAmount mod numOutputs) else coinAmount.
(** OutputBuilder.h:11-35 CreateOutputs *)
Definition CreateOutputs (d : WalletDB) (totalAmount walletTxId numOutputs : N)
    : outcome (list OutputDataEntity * WalletDB) :=
  let* r := next_paths (N.to_nat numOutputs) (d_accounts d) in
  Ret (map (fun p => CreateBlindedOutput (change_amount totalAmount numOutputs (fst p)) (snd p) walletTxId)
           (combine (seq 0 (N.to_nat numOutputs)) (fst r)),
       set_accounts (snd r) d).

(** the inputs, the amount, the fee and the number of change outputs: SendSlateBuilder.cpp:34-74.
    [coins] is what GetAllAvailableCoins returned. A failed assert stops a build without NDEBUG. *)
Definition plan_send (coins : list OutputDataEntity) (amount feeBase maxChangeOutputs : N) (sendEntireBalance : bool)
    (strategy : ESelectionStrategy) (chosen : list bytes) : outcome (list OutputDataEntity * N * N * N) :=
  let numChangeOutputs := if sendEntireBalance then 0 else maxChangeOutputs in
  let totalNumOutputs := (1 + numChangeOutputs) mod W8 in
  let* inputs := if sendEntireBalance then Ret coins
                 else SelectCoinsToSpend coins amount feeBase strategy chosen totalNumOutputs 1 in
  let inputTotal := sum64 inputs in
  let fee := CalculateFee feeBase (nlen inputs) totalNumOutputs 1 in
  let amountToSend := if sendEntireBalance then sub64 inputTotal fee else amount in
  if numChangeOutputs =? 0 then
    if negb ndebug && (sub64 inputTotal amountToSend <? fee) then Fault
    else Ret (inputs, amountToSend, sub64 inputTotal amountToSend, numChangeOutputs)
  else Ret (inputs, amountToSend, fee, numChangeOutputs).

(** SendSlateBuilder.cpp:202-255 BuildWalletTx. Simplification: the inputs and outputs of the attached
    transaction are left in the order given (TransactionBuilder.h sorts them by hash). *)
Definition BuildWalletTx (walletTxId : N) (inputs outputs : list OutputDataEntity) (slate : Slate) : WalletTx :=
  mkWalletTx walletTxId SENDING_STARTED (Some (s_id slate)) None (sum64 outputs) (sum64 inputs)
             (Some (s_fee slate)) (Some (map c_commitment inputs, map c_commitment outputs)).
(** SendSlateBuilder.cpp:257-279 UpdateDatabase *)
Definition Send_UpdateDatabase (slate : Slate) (ctx : SlateContext) (changeOutputs coinsToLock : list OutputDataEntity)
    (walletTx : WalletTx) (d : WalletDB) : outcome WalletDB :=
  let* d1 := SaveSlateContext (s_id slate) ctx d in
  Ret (AddTransaction walletTx (AddOutputs (map (SetStatus LOCKED) coinsToLock)
        (AddOutputs changeOutputs (SaveSlate slate d1)))).
(** SendSlateBuilder.cpp:89-200 Build; [id] is the random slate id *)
Definition Build (d : WalletDB) (id : bytes) (amountToSend fee numChangeOutputs : N) (inputs : list OutputDataEntity)
    : outcome (Slate * WalletDB) :=
  let '(walletTxId, d1) := GetNextTransactionId d in
  let* r := if 0 <? numChangeOutputs
            then CreateOutputs d1 (sub64 (sum64 inputs) (add64 amountToSend fee)) walletTxId numChangeOutputs
            else Ret ([], d1) in
  let '(changeOutputs, d2) := r in
  let coms := fold_left AddOutput (map c_commitment changeOutputs)
                (fold_left AddInput (map c_commitment inputs) []) in
  let slate := mkSlate id STANDARD_SENT amountToSend (mkFee 0 fee) coms in
  let walletTx := BuildWalletTx walletTxId inputs changeOutputs slate in
  let* d3 := Send_UpdateDatabase slate (mkContext inputs changeOutputs) changeOutputs inputs walletTx d2 in
  Ret (slate, d3).

Record SendCriteria := mkSend {
  sc_amount : option N;                  (* none: send the entire balance; WalletManagerImpl.cpp:275-280 *)
  sc_feeBase : N;
  sc_numOutputs : N;                     (* uint8 *)
  sc_strategy : ESelectionStrategy;
  sc_inputs : list bytes
}.
(** SendSlateBuilder.cpp:22-87 BuildSendSlate, as called by WalletManagerImpl.cpp:261-288 Send *)
Definition Send (nv : NodeView) (d : WalletDB) (id : bytes) (sc : SendCriteria) : outcome Slate * WalletDB :=
  let '(coins, d1) := GetAllAvailableCoins nv d in
  let r := let* coins := coins in
           let* p := plan_send coins (match sc_amount sc with Some a => a | None => 0 end) (sc_feeBase sc)
                       (sc_numOutputs sc) (match sc_amount sc with Some _ => false | None => true end)
                       (sc_strategy sc) (sc_inputs sc) in
           let '(inputs, amountToSend, fee, numChangeOutputs) := p in
           Build d1 id amountToSend fee numChangeOutputs inputs in
  match r with
  | Ret (slate, d2) => (Ret slate, d2)
  | Throw => (Throw, d1)
  | Fault => (Fault, d1)
  end.

(** Wallet.cpp:169-226 EstimateFee: amount, fee, inputs *)
Definition EstimateFee (d : WalletDB) (sc : SendCriteria) : outcome (N * N * list OutputDataEntity) :=
  let totalNumOutputs := (sc_numOutputs sc + 1) mod W8 in
  let available := filter (fun o => status_eqb (c_status o) SPENDABLE) (d_outputs d) in
  match sc_amount sc with
  | Some amount =>
      let* inputs := SelectCoinsToSpend available amount (sc_feeBase sc) (sc_strategy sc) (sc_inputs sc) totalNumOutputs 1 in
      Ret (amount, CalculateFee (sc_feeBase sc) (nlen inputs) totalNumOutputs 1, inputs)
  | None =>
      let fee := CalculateFee (sc_feeBase sc) (nlen available) totalNumOutputs 1 in
      if sum64 available <? fee then Throw else Ret (sub64 (sum64 available) fee, fee, available)
  end.

(** ReceiveSlateBuilder.cpp:89-105 VerifySlateStatus *)
Definition VerifySlateStatus (d : WalletDB) (id : bytes) : bool :=
  match tx_by_slate id (d_txs d) with
  | Some t => match w_type t with RECEIVED_CANCELED | SENDING_STARTED => true | _ => false end
  | None => true
  end.
(** ReceiveSlateBuilder.cpp:10-87 AddReceiverData. [ok]: signing, checking the partial signatures and the
    payment proof succeed (ExchangeModel.v); when they throw the batch is rolled back. *)
Definition Receive (d : WalletDB) (send_slate : Slate) (ok : bool) : outcome Slate * WalletDB :=
  if negb (VerifySlateStatus d (s_id send_slate)) then (Throw, d)
  else
    match GetNextChildPath (d_accounts d) USER_PATH with
    | Ret (path, accs) =>
        let '(walletTxId, d1) := GetNextTransactionId (set_accounts accs d) in
        let outputData := CreateBlindedOutput (s_amount send_slate) path walletTxId in
        let slate := mkSlate (s_id send_slate) STANDARD_RECEIVED (s_amount send_slate) (s_fee send_slate)
                       (AddOutput (s_coms send_slate) (c_commitment outputData)) in
        let walletTx := mkWalletTx walletTxId RECEIVING_IN_PROGRESS (Some (s_id slate)) None (s_amount slate) 0
                          (Some (s_fee slate)) None in
        if ok then (Ret slate, SaveSlate slate (AddTransaction walletTx (AddOutputs [outputData] d1)))
        else (Throw, d)
    | Throw => (Throw, d)
    | Fault => (Fault, d)
    end.

(** FinalizeSlateBuilder.cpp:15-97 Finalize, 250-259 UpdateDatabase. [ok]: the partial signatures, the
    payment proof, the aggregate signature and TransactionValidator accept (ExchangeModel.v). *)
Definition Finalize (d : WalletDB) (rcvSlate : Slate) (ok : bool) : outcome Slate * WalletDB :=
  match LoadSlate (s_id rcvSlate) STANDARD_SENT d, tx_by_slate (s_id rcvSlate) (d_txs d),
        LoadSlateContext (s_id rcvSlate) d with
  | Some sendSlate, Some walletTx, Some ctx =>
      let coms := fold_left AddOutput (map c_commitment (x_outputs ctx))
                    (fold_left AddInput (map c_commitment (x_inputs ctx)) (s_coms rcvSlate)) in
      let slate := mkSlate (s_id rcvSlate) STANDARD_FINALIZED (s_amount sendSlate) (s_fee sendSlate) coms in
      let walletTx' := SetTransaction (Slate_GetInputs slate, Slate_GetOutputs slate) (SetType SENDING_FINALIZED walletTx) in
      if ok then (Ret slate, AddTransaction walletTx' (SaveSlate slate d)) else (Throw, d)
  | _, _, _ => (Throw, d)
  end.

(** CancelTx.cpp:40-70 GetOutputsToUpdate, one output: its new value when it changes *)
Definition cancel_output (inputs : list bytes) (t : WalletTx) (o : OutputDataEntity) : outcome (option OutputDataEntity) :=
  if existsb (bytes_eqb (c_commitment o)) inputs then
    match c_status o with
    | NO_CONFIRMATIONS | SPENT => Ret (Some (SetStatus CANCELED o))
    | LOCKED => Ret (Some (SetStatus SPENDABLE o))
    | _ => match w_type t with SENT_CANCELED => Ret None | _ => Throw end
    end
  else if match c_tx o with Some i => i =? w_id t | None => false end then
    match c_status o with
    | NO_CONFIRMATIONS | SPENT => Ret (Some (SetStatus CANCELED o))
    | CANCELED => Ret None
    | _ => Throw
    end
  else Ret None.
Fixpoint GetOutputsToUpdate (inputs : list bytes) (t : WalletTx) (outs : list OutputDataEntity)
    : outcome (list OutputDataEntity) :=
  match outs with
  | [] => Ret []
  | o :: rest =>
      let* u := cancel_output inputs t o in
      let* us := GetOutputsToUpdate inputs t rest in
      Ret (match u with Some o' => o' :: us | None => us end)
  end.
(** CancelTx.cpp:6-33 CancelWalletTx *)
Definition CancelWalletTx (d : WalletDB) (t : WalletTx) : outcome WalletDB :=
  let* t' := match w_type t with
             | RECEIVING_IN_PROGRESS => Ret (SetType RECEIVED_CANCELED t)
             | SENDING_STARTED | SENDING_FINALIZED => Ret (SetType SENT_CANCELED t)
             | _ => Throw
             end in
  let inputs := match w_type t', w_tx t' with SENT_CANCELED, Some x => fst x | _, _ => [] end in
  let* us := GetOutputsToUpdate inputs t' (d_outputs d) in
  Ret (AddTransaction t' (AddOutputs us d)).
(** Wallet.cpp:252-260 CancelTx *)
Definition CancelTx (d : WalletDB) (id : N) : outcome unit * WalletDB :=
  match find (fun t => w_id t =? id) (d_txs d) with
  | None => (Ret tt, d)
  | Some t => match CancelWalletTx d t with
              | Ret d' => (Ret tt, d')
              | Throw => (Throw, d)
              | Fault => (Fault, d)
              end
  end.

(** calls of the wallet API, each with what the outside world supplies *)
Inductive wallet_op :=
| OpSend (nv : NodeView) (id : bytes) (sc : SendCriteria)
| OpReceive (slate : Slate) (ok : bool)
| OpFinalize (slate : Slate) (ok : bool)
| OpCancel (id : N)
| OpRefresh (nv : NodeView).          (* also WalletImpl::GetBalance and the periodic refresh *)
Definition wallet_step (d : WalletDB) (op : wallet_op) : WalletDB :=
  match op with
  | OpSend nv id sc => snd (Send nv d id sc)
  | OpReceive s ok => snd (Receive d s ok)
  | OpFinalize s ok => snd (Finalize d s ok)
  | OpCancel id => snd (CancelTx d id)
  | OpRefresh nv => snd (Refresh nv d)
  end.
Definition wallet_run (ops : list wallet_op) (d : WalletDB) : WalletDB := fold_left wallet_step ops d.

End Wallet.
