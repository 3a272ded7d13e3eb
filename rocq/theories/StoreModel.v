(** Model of what the wallet writes to its database and reads back: outputs, transactions and the
    private context of a slate, their encryption, and the tables that hold them.
    include/Wallet/WalletDB/Models/OutputDataEntity.h, include/Wallet/WalletDB/Models/SlateContextEntity.h,
    include/Wallet/WalletTx.h, src/Wallet/WalletDB/WalletEncryptionUtil.cpp and
    src/Wallet/WalletDB/Sqlite/Tables/{OutputsTable,TransactionsTable,SlateContextTable}.cpp. *)
From Coq Require Import Ascii String.
From Verif Require Import Base Bytes FileModel SerialModel TextModel KeyPathModel CodecModel SlateCodecModel.
Local Open Scope N_scope.
Local Open Scope list_scope.

(** std::optional::value_or(0) *)
Definition value_or0 (o : option N) : N := match o with Some x => x | None => 0 end.
(** [x == 0 ? nullopt : make_optional(x)] *)
Definition nonzero (x : N) : option N := if x =? 0 then None else Some x.
(** [s.empty() ? nullopt : make_optional(s)] and the reverse [has_value() ? value() : ""] *)
Definition nonempty (s : bytes) : option bytes := match s with [] => None | _ => Some s end.
Definition value_or_empty (o : option bytes) : bytes := match o with Some s => s | None => [] end.
(** a call that does not touch the buffer *)
Definition lift {A} (o : outcome A) : reader A := fun b => omap (fun a => (a, b)) o.
(** [byteBuffer.GetRemainingSize() != 0] *)
Definition HasMore : reader bool := fun b => Ret (negb (GetRemainingSize b =? 0), b).

(** OutputDataEntity.h:168-176. The status is the number of the enumerator (Enums/OutputStatus.h:5-13). *)
Record OutputData := mkOD {
  od_path : KeyChainPath; od_blind : bytes; od_output : TransactionOutput; od_amount : N; od_status : N;
  od_mmrIndex : option N; od_blockHeight : option N; od_walletTxId : option N; od_labels : list bytes }.
(** OutputDataEntity.h:15 *)
Definition OUTPUT_DATA_FORMAT : N := 1.

(** OutputDataEntity.h:83-98, secret keys as SecretKey.h:40-43 *)
Definition OutputData_Serialize (e : OutputData) : bytes :=
  Append 1 OUTPUT_DATA_FORMAT ++
  AppendVarStr (Format (od_path e)) ++
  AppendBigInteger (od_blind e) ++
  Output_Serialize (od_output e) ++
  Append 8 (od_amount e) ++
  Append 1 (od_status e) ++
  Append 8 (value_or0 (od_mmrIndex e)) ++
  Append 8 (value_or0 (od_blockHeight e)) ++
  AppendVarStr (hd [] (od_labels e)) ++
  match od_walletTxId e with Some id => Append 4 id | None => [] end.

(** OutputDataEntity.h:103-150, secret keys as SecretKey.h:45-48 *)
Definition OutputData_Deserialize : reader OutputData :=
  let! formatVersion := ReadU8 in
  if OUTPUT_DATA_FORMAT <? formatVersion then rthrow else
  let! pathStr := ReadVarStr in
  let! path := lift (FromString pathStr) in
  let! blind := ReadBigInteger 32 in
  let! output := Output_Deserialize in
  let! amount := ReadU64 in
  let! status := ReadU8 in
  let! mmrIndex := ReadU64 in
  let! more := HasMore in
  let! blockHeight := (if more then ReadU64 else rret 0) in
  let! labels := (if 1 <=? formatVersion
                  then let! label := ReadVarStr in rret (match label with [] => [] | _ => [label] end)
                  else rret []) in
  let! more2 := HasMore in
  let! walletTxId := (if more2 then let! id := ReadU32 in rret (Some id) else rret None) in
  rret (mkOD path blind output amount status (nonzero mmrIndex) (nonzero blockHeight) walletTxId labels).

(** SlateContextEntity.h:87-91 *)
Record SlateContext := mkCtx { cx_key : bytes; cx_nonce : bytes; cx_inputs : list OutputData; cx_outputs : list OutputData }.
(** SlateContextEntity.h:42-58 *)
Definition Context_Serialize (c : SlateContext) : bytes :=
  AppendBigInteger (cx_key c) ++ AppendBigInteger (cx_nonce c) ++
  Append 8 (nlen (cx_inputs c)) ++ flat_map OutputData_Serialize (cx_inputs c) ++
  Append 8 (nlen (cx_outputs c)) ++ flat_map OutputData_Serialize (cx_outputs c).
(** SlateContextEntity.h:60-85. Simplification: the number of turns of each loop is the count read;
    every turn consumes bytes or throws. *)
Definition Context_Deserialize : reader SlateContext :=
  let! key := ReadBigInteger 32 in
  let! nonce := ReadBigInteger 32 in
  let! numInputs := ReadU64 in
  let! inputs := read_many OutputData_Deserialize (N.to_nat numInputs) in
  let! numOutputs := ReadU64 in
  let! outputs := read_many OutputData_Deserialize (N.to_nat numOutputs) in
  rret (mkCtx key nonce inputs outputs).

(** WalletTx.h:208-221. Times are system_clock time points: nanoseconds since the epoch in an int64
    (the standard library used on Linux). The type is the number of the enumerator (WalletTxType.h:6-16). *)
Record WalletTx := mkWTx {
  wt_id : N; wt_type : N; wt_slateId : option bytes; wt_address : option bytes; wt_message : option bytes;
  wt_created : Z; wt_confirmed : option Z; wt_height : option N; wt_credited : N; wt_debited : N;
  wt_fee : option Fee; wt_transaction : option Transaction; wt_proof : option slate_proof }.
(** WalletTx.h:12 *)
Definition WALLET_TX_DATA_FORMAT : N := 3.
(** include/Common/Util/TimeUtil.h:47-50: duration_cast truncates towards zero *)
Definition ToInt64 (t : Z) : Z := Z.quot t 1000000.
(** TimeUtil.h:57-60. Simplification: the multiplication is exact (times that do not overflow). *)
Definition ToTimePoint (millis : Z) : Z := (millis * 1000000)%Z.

Section Store.
(** outside the model: the hash, the features the node knows for an input, the text form of a uuid, and AES *)
Variable Blake2b : bytes -> bytes.
Variable GetOutputType : bytes -> N.
Variable uuid_to_string : bytes -> bytes.
Variable uuid_from_string : bytes -> option bytes.
Variable AES256_Encrypt : bytes -> bytes -> bytes -> bytes. (* data, key, iv *)
Variable AES256_Decrypt : bytes -> bytes -> bytes -> outcome bytes.

(** WalletTx.h:67-106; the serializer is at protocol version 1 (Serializer.h:25) *)
Definition WalletTx_Serialize (t : WalletTx) : bytes :=
  Append 1 WALLET_TX_DATA_FORMAT ++
  Append 4 (wt_id t) ++
  Append 1 (wt_type t) ++
  AppendVarStr (match wt_slateId t with Some u => uuid_to_string u | None => [] end) ++
  AppendVarStr (value_or_empty (wt_address t)) ++
  AppendVarStr (value_or_empty (wt_message t)) ++
  AppendSigned 8 (ToInt64 (wt_created t)) ++
  AppendSigned 8 (match wt_confirmed t with Some c => ToInt64 c | None => 0%Z end) ++
  Append 8 (value_or0 (wt_height t)) ++
  Append 8 (wt_credited t) ++
  Append 8 (wt_debited t) ++
  (match wt_fee t with Some f => Append 1 1 ++ Fee_Serialize f | None => Append 1 0 end) ++
  (match wt_proof t with Some p => Append 1 1 ++ Proof_Serialize p | None => Append 1 0 end) ++
  match wt_transaction t with Some x => Transaction_Serialize 1 x | None => [] end.

(** WalletTx.h:108-206 *)
Definition WalletTx_Deserialize : reader WalletTx :=
  let! fmt := ReadU8 in
  if WALLET_TX_DATA_FORMAT <? fmt then rthrow else
  let! id := ReadU32 in
  let! type := ReadU8 in
  let! slateIdStr := ReadVarStr in
  let slateId := match slateIdStr with [] => None | _ => uuid_from_string slateIdStr end in
  let! address := (if 2 <=? fmt then let! s := ReadVarStr in rret (nonempty s) else rret None) in
  let! message := (if 1 <=? fmt then let! s := ReadVarStr in rret (nonempty s) else rret None) in
  let! created := Read64 in
  let! confirmed := Read64 in
  let! blockHeight := ReadU64 in
  let! credited := ReadU64 in
  let! debited := ReadU64 in
  let! hasFee := ReadU8 in
  let! fee := (if hasFee =? 1 then let! f := Fee_Deserialize in rret (Some f) else rret None) in
  let! proof := (if 3 <=? fmt
                 then let! hasProof := ReadU8 in
                      if hasProof =? 1 then let! p := Proof_Deserialize in rret (Some p) else rret None
                 else rret None) in
  let! more := HasMore in
  let! tx := (if more then let! x := Transaction_Deserialize Blake2b GetOutputType in rret (Some x) else rret None) in
  rret (mkWTx id type slateId address message (ToTimePoint created)
          (if (confirmed =? 0)%Z then None else Some (ToTimePoint confirmed))
          (nonzero blockHeight) credited debited fee tx proof).

(** WalletEncryptionUtil.cpp:7 *)
Definition ENCRYPTION_FORMAT : N := 0.
(** WalletEncryptionUtil.cpp:51-66 *)
Definition CreateSecureKey (masterSeed dataType : bytes) : bytes := Blake2b (masterSeed ++ AppendVarStr dataType).
(** WalletEncryptionUtil.cpp:9-25; [iv] is the 16 random bytes drawn *)
Definition Encrypt (masterSeed dataType iv data : bytes) : bytes :=
  Append 1 ENCRYPTION_FORMAT ++ AppendBigInteger iv ++
  AppendByteVector (AES256_Encrypt data (CreateSecureKey masterSeed dataType) iv) LenNone.
(** WalletEncryptionUtil.cpp:27-49 *)
Definition Decrypt (masterSeed dataType encrypted : bytes) : outcome bytes :=
  omap fst ((let! formatVersion := ReadU8 in
             if negb (formatVersion =? ENCRYPTION_FORMAT) then rthrow else
             let! iv := ReadBigInteger 16 in
             let! encryptedBytes := (fun b => ReadVector (GetRemainingSize b) b) in
             lift (AES256_Decrypt encryptedBytes (CreateSecureKey masterSeed dataType) iv)) (mkBB 0 encrypted 1)).

(** insert ... ON CONFLICT(key) DO UPDATE: the row with this key is replaced, or one is added.
    Simplification: a new row comes last, whatever its key; no theorem is about the order of rows. *)
Fixpoint upsert {K R} (keq : K -> K -> bool) (k : K) (r : R) (rows : list (K * R)) : list (K * R) :=
  match rows with
  | [] => [(k, r)]
  | (k', r') :: rest => if keq k' k then (k, r) :: rest else (k', r') :: upsert keq k r rest
  end.

(** OutputsTable.cpp:14-18. Simplifications: the key is the commitment rather than its hex text, and
    the plain columns status and transaction_id, which no query reads, are left out. *)
Definition outputs_table := list (bytes * bytes).
(** OutputsTable.cpp:50-77; each output comes with the random bytes its encryption draws *)
Definition AddOutputs (masterSeed : bytes) (outputs : list (OutputData * bytes)) (t : outputs_table) : outputs_table :=
  fold_left (fun t o => upsert bytes_eqb (o_commitment (od_output (fst o)))
                          (Encrypt masterSeed (chars "OUTPUT") (snd o) (OutputData_Serialize (fst o))) t) outputs t.
Fixpoint collect {A B} (f : A -> outcome B) (l : list A) : outcome (list B) :=
  match l with
  | [] => Ret []
  | a :: l' => let* b := f a in let* bs := collect f l' in Ret (b :: bs)
  end.
(** OutputsTable.cpp:79-102 *)
Definition GetOutputs (masterSeed : bytes) (t : outputs_table) : outcome (list OutputData) :=
  collect (fun row => let* decrypted := Decrypt masterSeed (chars "OUTPUT") (snd row) in
                      omap fst (OutputData_Deserialize (mkBB 0 decrypted 1))) t.

(** TransactionsTable.cpp:13-17; the key is the id as an int (36, 73). Simplification: the column
    slate_id, which no query reads, is left out. *)
Definition transactions_table := list (Z * bytes).
(** TransactionsTable.cpp:24-48 *)
Definition AddTransactions (masterSeed : bytes) (txs : list (WalletTx * bytes)) (t : transactions_table) : transactions_table :=
  fold_left (fun t x => upsert Z.eqb (to_int (wt_id (fst x)))
                          (Encrypt masterSeed (chars "WALLET_TX") (snd x) (WalletTx_Serialize (fst x))) t) txs t.
(** TransactionsTable.cpp:62-63 and 81-86 *)
Definition ReadTransaction (masterSeed row : bytes) : outcome WalletTx :=
  let* decrypted := Decrypt masterSeed (chars "WALLET_TX") row in
  omap fst (WalletTx_Deserialize (mkBB 0 decrypted 1)).
(** TransactionsTable.cpp:50-67 *)
Definition GetTransactions (masterSeed : bytes) (t : transactions_table) : outcome (list WalletTx) :=
  collect (fun row => ReadTransaction masterSeed (snd row)) t.
(** TransactionsTable.cpp:69-87 *)
Definition GetTransactionById (masterSeed : bytes) (t : transactions_table) (walletTxId : N) : outcome (option WalletTx) :=
  match find (fun row => (fst row =? to_int walletTxId)%Z) t with
  | None => Ret None
  | Some row => omap Some (ReadTransaction masterSeed (snd row))
  end.

(** SlateContextTable.cpp:9-14: slate id (primary key), iv, enc_context. Simplification: the key is the
    slate id rather than its text. *)
Definition contexts_table := list (bytes * (bytes * bytes)).
(** SlateContextTable.cpp:107-116 *)
Definition DeriveAESKey (masterSeed slateId : bytes) : bytes :=
  Blake2b (AppendByteVector masterSeed LenNone ++ AppendVarStr (uuid_to_string slateId) ++ AppendVarStr (chars "context")).
(** SlateContextTable.cpp:27-45 and 80-91: a plain insert, refused when the slate has a row *)
Definition SaveSlateContext (masterSeed slateId iv : bytes) (c : SlateContext) (t : contexts_table) : outcome contexts_table :=
  if existsb (fun r => bytes_eqb (fst r) slateId) t then Throw
  else Ret (t ++ [(slateId, (iv, AES256_Encrypt (Context_Serialize c) (DeriveAESKey masterSeed slateId) iv))]).
(** SlateContextTable.cpp:47-76 and 93-105 *)
Definition LoadSlateContext (masterSeed : bytes) (t : contexts_table) (slateId : bytes) : outcome (option SlateContext) :=
  match find (fun r => bytes_eqb (fst r) slateId) t with
  | None => Ret None
  | Some (_, (iv, encrypted)) =>
      if negb (nlen iv =? 16) then Throw else
      let* decrypted := AES256_Decrypt encrypted (DeriveAESKey masterSeed slateId) iv in
      omap (fun p => Some (fst p)) (Context_Deserialize (mkBB 0 decrypted 1))
  end.
End Store.
