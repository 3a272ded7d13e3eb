(** Model of the search of a wallet for its outputs: src/Wallet/OutputRestorer.cpp, and TxHashSet::GetOutputsByLeafIndex of
    src/PMMR/TxHashSetImpl.cpp, which answers it. The keychain (the rewinding of range proofs, derivation of keys) is a parameter.
    Simplified: the output and range proof MMRs are one list of leaves, [None] for a spent one (UtxoModel has the files and the leaf set);
    leaf indices are compared instead of positions, which is the same below 2^63 leaves. *)
From Verif Require Import Base Bytes ConsensusModel.
Local Open Scope N_scope.

(** The unspent leaves (commitment, range proof) and the table of output positions (leaf index, block height). *)
Record Node := mkNode { n_leaves : list (option (bytes * bytes)); n_position : bytes -> option (N * N) }.
(** include/Core/Models/DTOs/OutputDTO.h. *)
Record OutputDTO := mkDTO { o_commitment : bytes; o_proof : bytes; o_leaf : N; o_height : N }.
(** include/Core/Models/DTOs/OutputRange.h. *)
Record OutputRange := mkRange { r_highest : N; r_last : N; r_outputs : list OutputDTO }.

(** TxHashSetImpl.cpp:280-297: the loop over the leaves from [index]. *)
Fixpoint collect (n : Node) (ls : list (option (bytes * bytes))) (index : N) (max : nat) : outcome (list OutputDTO) :=
  match max, ls with
  | O, _ | _, [] => Ret []
  | _, None :: ls => collect n ls (index + 1) max
  | S max', Some (c, p) :: ls =>
    match n_position n c with
    | Some (leaf, height) =>
      if leaf =? index then let* l := collect n ls (index + 1) max' in Ret (mkDTO c p index height :: l) else Throw
    | None => Throw
    end
  end.
(** 273-304. *)
Definition GetOutputsByLeafIndex (n : Node) (startIndex : N) (maxNumOutputs : nat) : outcome OutputRange :=
  let* outputs := collect n (skipn (N.to_nat startIndex) (n_leaves n)) startIndex maxNumOutputs in
  let maxLeafIndex := N.of_nat (length (n_leaves n)) in
  let lastRetrievedIndex := match outputs with [] => 0 | _ => o_leaf (last outputs (mkDTO [] [] 0 0)) end in
  Ret (mkRange (if 0 <? maxLeafIndex then maxLeafIndex - 1 else 0) lastRetrievedIndex outputs).

(** The two kinds of range proofs, and what rewinding one gives (include/Crypto/Models/RewoundProof.h): amount, blinding factor, message. *)
Inductive EBulletproofType := ORIGINAL | ENHANCED.
Record RewoundProof := mkRewound { w_amount : N; w_blind : option bytes; w_message : bytes }.
Record keychain := mkKeychain {
  RewindRangeProof : bytes -> bytes -> EBulletproofType -> option RewoundProof;
  ToKeyIndices : bytes -> EBulletproofType -> list N;
  DerivePrivateKey : list N -> N -> bytes }.
(** The entity of the wallet (OutputDataEntity.h): always SPENDABLE here, because the node gives no spent outputs. *)
Record Restored := mkRestored { x_path : list N; x_key : bytes; x_commitment : bytes; x_proof : bytes; x_amount : N; x_leaf : N; x_height : N }.

Section Restore.
Variable env : Environment.
Variable k : keychain.

(** OutputRestorer.cpp:70-103: BuildWalletOutput. *)
Definition BuildWalletOutput (o : OutputDTO) (p : RewoundProof) (type : EBulletproofType) : Restored :=
  let path := ToKeyIndices k (w_message p) type in
  let key := match w_blind p, type with Some b, ORIGINAL => b | _, _ => DerivePrivateKey k path (w_amount p) end in
  mkRestored path key (o_commitment o) (o_proof o) (w_amount p) (o_leaf o) (o_height o).
(** 48-68: GetWalletOutput. (Subtraction of [N] is saturated.) *)
Definition GetWalletOutput (o : OutputDTO) : option Restored :=
  let original := if GetHeaderVersion env (o_height o - 2 * WEEK_HEIGHT) =? 1 then RewindRangeProof k (o_commitment o) (o_proof o) ORIGINAL else None in
  match original with
  | Some p => Some (BuildWalletOutput o p ORIGINAL)
  | None => match RewindRangeProof k (o_commitment o) (o_proof o) ENHANCED with
            | Some p => Some (BuildWalletOutput o p ENHANCED)
            | None => None
            end
  end.
Fixpoint filter_map {A B} (f : A -> option B) (l : list A) : list B :=
  match l with [] => [] | x :: l => match f x with Some y => y :: filter_map f l | None => filter_map f l end end.

(** The node at the time of each request; [None]: it has no state. *)
Variable node : nat -> option Node.
(** 9: NUM_OUTPUTS_PER_BATCH. *)
Definition NUM_OUTPUTS_PER_BATCH : nat := 1000.
(** 17-41: the loop. The result: the outputs found, the new restore index (if it is updated), and the time. [None]: no fuel. *)
Fixpoint scan (fuel : nat) (t : nat) (nextLeafIndex highestIndex : N) (walletOutputs : list Restored) : option (outcome (list Restored * option N * nat)) :=
  match fuel with
  | O => None
  | S fuel =>
    match node t with
    | None => Some (Ret ([], None, S t))
    | Some n =>
      match GetOutputsByLeafIndex n nextLeafIndex NUM_OUTPUTS_PER_BATCH with
      | Throw => Some Throw
      | Fault => Some Fault
      | Ret range =>
        if r_last range =? 0 then Some (Ret ([], None, S t)) else
        let walletOutputs := walletOutputs ++ filter_map GetWalletOutput (r_outputs range) in
        let highestIndex := if highestIndex =? 0 then r_highest range else highestIndex in
        let nextLeafIndex := add64 (r_last range) 1 in
        if highestIndex <? nextLeafIndex then Some (Ret (walletOutputs, Some (sub64 nextLeafIndex 1), S t)) else
        scan fuel (S t) nextLeafIndex highestIndex walletOutputs
      end
    end
  end.
(** 11-46: FindAndRewindOutputs at time [t], [restored] being the restore index. The fuel is enough: C60_scan_ends. *)
Definition FindAndRewindOutputs (fromGenesis : bool) (restored : N) (t : nat) : option (outcome (list Restored * option N * nat)) :=
  let fuel := match node t with Some n => S (length (n_leaves n)) | None => 1%nat end in
  scan fuel t (if fromGenesis then 0 else add64 restored 1) 0 [].

(** The refreshes of a wallet, each so long after the one before and from the first leaf or not: WalletRefresher.cpp:76-102 with
    WalletSqlite.cpp:145-155. A refresh that throws is rolled back. Gives the outputs found, the restore index and the time. *)
Fixpoint refreshes (rs : list (nat * bool)) (found : list Restored) (restored : N) (t : nat) : list Restored * N * nat :=
  match rs with
  | [] => (found, restored, t)
  | (wait, fromGenesis) :: rs =>
    match FindAndRewindOutputs fromGenesis restored (t + wait) with
    | Some (Ret (l, i, t')) => refreshes rs (found ++ l) (match i with Some i => i | None => restored end) t'
    | _ => refreshes rs found restored (t + wait + 1)
    end
  end.
End Restore.
