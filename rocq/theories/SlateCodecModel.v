(** Model of the two encodings of a slate (binary and JSON), of slate comparison and of the choice
    among the stored versions of a slate. *)
From Verif Require Import Base Bytes FileModel SerialModel CodecModel.
Local Open Scope N_scope.

(** include/Wallet/Models/Slate/SlateStage.h:5-14. *)
Inductive stage := S_NONE | S1 | S2 | S3 | I1 | I2 | I3.
(** SlateStage.h:66-79. *)
Definition Stage_ToByte (s : stage) : N :=
  match s with S1 => 1 | S2 => 2 | S3 => 3 | I1 => 4 | I2 => 5 | I3 => 6 | S_NONE => 0 end.
(** SlateStage.h:81-94. *)
Definition Stage_FromByte (n : N) : outcome stage :=
  if n =? 1 then Ret S1 else if n =? 2 then Ret S2 else if n =? 3 then Ret S3
  else if n =? 4 then Ret I1 else if n =? 5 then Ret I2 else if n =? 6 then Ret I3 else Throw.
(** [operator==] (21) compares the enumerators. *)
Definition stage_eqb (a b : stage) : bool := Stage_ToByte a =? Stage_ToByte b.

(** include/Wallet/Models/Slate/SlateSignature.h:23-25: public excess, public nonce, partial signature
    (in compact form). *)
Record slate_sig := mkSSig { sg_excess : bytes; sg_nonce : bytes; sg_partial : option bytes }.
(** include/Wallet/Models/Slate/SlateCommitment.h:19-21. *)
Record slate_com := mkSCom { sc_features : N; sc_commitment : bytes; sc_proof : option bytes }.
(** include/Wallet/Models/Slate/SlatePaymentProof.h:102-104. *)
Record slate_proof := mkSProof { sp_sender : bytes; sp_receiver : bytes; sp_signature : option bytes }.
(** include/Wallet/Models/Slate/SlateFeatureArgs.h:8. *)
Record feature_args := mkArgs { fa_lockHeight : option N }.
(** include/Wallet/Models/Slate/Slate.h:31-48. *)
Record slate := mkSlate {
  sl_id : bytes; sl_stage : stage; sl_version : N; sl_blockVersion : N; sl_numParticipants : N; sl_ttl : N;
  sl_kernelFeatures : N; sl_featureArgs : option feature_args; sl_offset : bytes; sl_amount : N; sl_fee : Fee;
  sl_sigs : list slate_sig; sl_commitments : list slate_com; sl_proof : option slate_proof }.

(** Fee.h:28-29. *)
Definition Fee_eqb (a b : Fee) : bool := (m_fee a =? m_fee b) && (m_shift a =? m_shift b).
Definition bytes_eqb (a b : bytes) : bool := if list_eq_dec N.eq_dec a b then true else false.
Definition opt_eqb {A} (eqb : A -> A -> bool) (a b : option A) : bool :=
  match a, b with Some x, Some y => eqb x y | None, None => true | _, _ => false end.
Fixpoint list_eqb {A} (eqb : A -> A -> bool) (a b : list A) : bool :=
  match a, b with [], [] => true | x :: a', y :: b' => eqb x y && list_eqb eqb a' b' | _, _ => false end.
(** SlateSignature.h:27-30, SlateCommitment.h:23-26, SlatePaymentProof.h:16-21. *)
Definition sig_eqb (a b : slate_sig) : bool :=
  bytes_eqb (sg_excess a) (sg_excess b) && bytes_eqb (sg_nonce a) (sg_nonce b) && opt_eqb bytes_eqb (sg_partial a) (sg_partial b).
Definition com_eqb (a b : slate_com) : bool :=
  (sc_features a =? sc_features b) && bytes_eqb (sc_commitment a) (sc_commitment b) && opt_eqb bytes_eqb (sc_proof a) (sc_proof b).
Definition proof_eqb (a b : slate_proof) : bool :=
  bytes_eqb (sp_sender a) (sp_sender b) && bytes_eqb (sp_receiver a) (sp_receiver b) && opt_eqb bytes_eqb (sp_signature a) (sp_signature b).
(** Slate.h:69-84. The block versions are not compared: line 74 reads [blockVersion && rhs.blockVersion]. *)
Definition slate_eqb (a b : slate) : bool :=
  bytes_eqb (sl_id a) (sl_id b) && stage_eqb (sl_stage a) (sl_stage b) && (sl_version a =? sl_version b) &&
  negb (sl_blockVersion a =? 0) && negb (sl_blockVersion b =? 0) &&
  (sl_amount a =? sl_amount b) && Fee_eqb (sl_fee a) (sl_fee b) && bytes_eqb (sl_offset a) (sl_offset b) &&
  (sl_numParticipants a =? sl_numParticipants b) && (sl_kernelFeatures a =? sl_kernelFeatures b) && (sl_ttl a =? sl_ttl b) &&
  list_eqb sig_eqb (sl_sigs a) (sl_sigs b) && list_eqb com_eqb (sl_commitments a) (sl_commitments b) &&
  opt_eqb proof_eqb (sl_proof a) (sl_proof b).

(** Slate.h:89. *)
Definition GetLockHeight (s : slate) : N :=
  match sl_featureArgs s with Some a => match fa_lockHeight a with Some h => h | None => 0 end | None => 0 end.

Section Sigs.
(** [secp256k1_ecdsa_signature_parse_compact] ([None]: refused) and
    [secp256k1_ecdsa_signature_serialize_compact] (src/Crypto/AggSig.cpp:314-345); the latter always succeeds. *)
Variable parse_compact : bytes -> option bytes.
Variable to_compact : bytes -> bytes.

(** src/Crypto/Crypto.cpp:154-159: on a refused signature the result vector is empty and [front()] is
    undefined behaviour. *)
Definition ParseCompactSignature (p : bytes) : outcome bytes :=
  match parse_compact p with Some s => Ret s | None => Fault end.

(** SlateSignature.h:32-40. *)
Definition Sig_Serialize (g : slate_sig) : outcome bytes :=
  match sg_partial g with
  | Some p => let* s := ParseCompactSignature p in Ret (Append 1 1 ++ sg_excess g ++ sg_nonce g ++ s)
  | None => Ret (Append 1 0 ++ sg_excess g ++ sg_nonce g)
  end.
(** SlateSignature.h:42-55. *)
Definition Sig_Deserialize : reader slate_sig :=
  let! hasSig := ReadU8 in
  let! excess := ReadBigInteger 33 in
  let! nonce := ReadBigInteger 33 in
  if 0 <? hasSig
  then let! signature := ReadBigInteger 64 in rret (mkSSig excess nonce (Some (to_compact signature)))
  else rret (mkSSig excess nonce None).

(** SlateCommitment.h:28-37. *)
Definition Com_Serialize (c : slate_com) : bytes :=
  Append 1 (match sc_proof c with Some _ => 1 | None => 0 end) ++ Append 1 (sc_features c) ++ sc_commitment c ++
  match sc_proof c with Some p => RangeProof_Serialize p | None => [] end.
(** SlateCommitment.h:39-52. The cast to the features enumeration is not checked. *)
Definition Com_Deserialize : reader slate_com :=
  let! hasProof := ReadU8 in
  let! features := ReadU8 in
  let! commitment := ReadBigInteger 33 in
  if 0 <? hasProof
  then let! p := RangeProof_Deserialize in rret (mkSCom features commitment (Some p))
  else rret (mkSCom features commitment None).

(** SlatePaymentProof.h:58-72. *)
Definition Proof_Serialize (p : slate_proof) : bytes :=
  sp_sender p ++ sp_receiver p ++
  match sp_signature p with Some s => Append 1 1 ++ s | None => Append 1 0 end.
(** SlatePaymentProof.h:74-88. *)
Definition Proof_Deserialize : reader slate_proof :=
  let! sender := ReadBigInteger 32 in
  let! receiver := ReadBigInteger 32 in
  let! hasSignature := ReadU8 in
  if hasSignature =? 1
  then let! s := ReadBigInteger 64 in rret (mkSProof sender receiver (Some s))
  else rret (mkSProof sender receiver None).

(** src/Wallet/Models/Slate/Slate.cpp:16-25. *)
Definition FieldStatus_ToByte (num_parts amt fee feat ttl : bool) : N :=
  N.lor (N.lor (N.lor (N.lor (if num_parts then 1 else 0) (if amt then 2 else 0)) (if fee then 4 else 0))
    (if feat then 8 else 0)) (if ttl then 16 else 0).
(** Slate.cpp:46-52. *)
Definition StructStatus_ToByte (coms proof : bool) : N := N.lor (if coms then 1 else 0) (if proof then 2 else 0).

Fixpoint serialize_all {A} (f : A -> outcome bytes) (l : list A) : outcome bytes :=
  match l with
  | [] => Ret []
  | x :: l' => let* a := f x in let* b := serialize_all f l' in Ret (a ++ b)
  end.

(** Slate.cpp:171-234. The counts are cast to 8 and 16 bits. *)
Definition Slate_Serialize (s : slate) : outcome bytes :=
  let np := negb (sl_numParticipants s =? 2) in
  let amt := negb (sl_amount s =? 0) in
  let fee := negb (Fee_eqb (sl_fee s) (mkFee 0 0)) in
  let feat := negb (sl_kernelFeatures s =? DEFAULT_KERNEL) in
  let ttl := negb (sl_ttl s =? 0) in
  let* sigs := serialize_all Sig_Serialize (sl_sigs s) in
  Ret (Append 2 (sl_version s) ++ Append 2 (sl_blockVersion s) ++ sl_id s ++ Append 1 (Stage_ToByte (sl_stage s)) ++
    sl_offset s ++ Append 1 (FieldStatus_ToByte np amt fee feat ttl) ++
    (if np then Append 1 (sl_numParticipants s) else []) ++
    (if amt then Append 8 (sl_amount s) else []) ++
    (if fee then Fee_Serialize (sl_fee s) else []) ++
    (if feat then Append 1 (sl_kernelFeatures s) else []) ++
    (if ttl then Append 8 (sl_ttl s) else []) ++
    Append 1 (nlen (sl_sigs s) mod W8) ++ sigs ++
    Append 1 (StructStatus_ToByte (match sl_commitments s with [] => false | _ => true end)
                (match sl_proof s with Some _ => true | None => false end)) ++
    (match sl_commitments s with
     | [] => []
     | _ => Append 2 (nlen (sl_commitments s) mod W16) ++ flat_map Com_Serialize (sl_commitments s)
     end) ++
    (match sl_proof s with Some p => Proof_Serialize p | None => [] end) ++
    (if sl_kernelFeatures s =? HEIGHT_LOCKED then Append 8 (GetLockHeight s) else [])).

(** Slate.cpp:236-302, with the defaults of Slate.h:50-64 and the status bits of Slate.cpp:27-36 and
    54-60. *)
Definition Slate_Deserialize : reader slate :=
  let! version := ReadU16 in
  let! blockVersion := ReadU16 in
  let! slateId := ReadBigInteger 16 in
  let! st := ReadU8 in
  let! stg := (match Stage_FromByte st with Ret x => rret x | _ => rthrow end) in
  let! offset := ReadBigInteger 32 in
  let! fields := ReadU8 in
  let! numParticipants := (if N.testbit fields 0 then ReadU8 else rret 2) in
  let! amount := (if N.testbit fields 1 then ReadU64 else rret 0) in
  let! fee := (if N.testbit fields 2 then Fee_Deserialize else rret (mkFee 0 0)) in
  let! kernelFeatures := (if N.testbit fields 3 then ReadU8 else rret DEFAULT_KERNEL) in
  let! ttl := (if N.testbit fields 4 then ReadU64 else rret 0) in
  let! numSigs := ReadU8 in
  let! sigs := read_many Sig_Deserialize (N.to_nat numSigs) in
  let! structs := ReadU8 in
  let! commitments := (if N.testbit structs 0
                       then let! numComs := ReadU16 in read_many Com_Deserialize (N.to_nat numComs)
                       else rret []) in
  let! proof := (if N.testbit structs 1 then let! p := Proof_Deserialize in rret (Some p) else rret None) in
  let! args := (if negb (kernelFeatures =? DEFAULT_KERNEL)
                then let! lock := (if kernelFeatures =? HEIGHT_LOCKED then let! h := ReadU64 in rret (Some h) else rret None) in
                     rret (Some (mkArgs lock))
                else rret None) in
  rret (mkSlate slateId stg version blockVersion numParticipants ttl kernelFeatures args offset amount fee sigs commitments proof).
End Sigs.

(** * JSON *)
(** A JSON object with each field already converted: hexadecimal and decimal texts stand for the bytes
    and numbers they denote (their conversion is C41), [None] for an absent field. Absent lists read as
    empty. The stage text is the stage. *)
Record json_com := mkJCom { jc_c : bytes; jc_f : option N; jc_p : option bytes }.
Record json_args := mkJArgs { ja_lock_hgt : option N }.
Record json_slate := mkJSlate {
  js_ver : N * N; js_id : bytes; js_sta : stage; js_off : option bytes; js_num_parts : option N;
  js_fee : option N; js_amt : option N; js_feat : option N; js_feat_args : option json_args; js_ttl : option N;
  js_sigs : list slate_sig; js_coms : list json_com; js_proof : option slate_proof }.

(** SlateCommitment.h:54-70. *)
Definition Com_ToJSON (c : slate_com) : json_com :=
  mkJCom (sc_commitment c) (if sc_features c =? 1 then Some 1 else None) (sc_proof c).
Definition getN (o : option N) (d : N) : N := match o with Some x => x | None => d end.
(** SlateCommitment.h:72-79,82-85; include/Core/Util/JsonUtil.h:41-55,304-323: a proof must have exactly 675 bytes. *)
Definition Com_FromJSON (j : json_com) : outcome slate_com :=
  let f := if getN (jc_f j) 0 =? 1 then 1 else 0 in
  if negb (nlen (jc_c j) =? 33) then Throw else
  match jc_p j with
  | Some p => if nlen p =? MAX_PROOF_SIZE then Ret (mkSCom f (jc_c j) (Some p)) else Throw
  | None => Ret (mkSCom f (jc_c j) None)
  end.
(** SlateSignature.h:57-80: the fields as they are; reading checks the sizes. *)
Definition Sig_FromJSON (g : slate_sig) : outcome slate_sig :=
  if (nlen (sg_excess g) =? 33) && (nlen (sg_nonce g) =? 33) && match sg_partial g with Some p => nlen p =? 64 | None => true end
  then Ret g else Throw.
(** SlatePaymentProof.h:41-56. *)
Definition Proof_FromJSON (p : slate_proof) : outcome slate_proof :=
  if (nlen (sp_sender p) =? 32) && (nlen (sp_receiver p) =? 32) && match sp_signature p with Some x => nlen x =? 64 | None => true end
  then Ret p else Throw.

Fixpoint omap_all {A B} (f : A -> outcome B) (l : list A) : outcome (list B) :=
  match l with
  | [] => Ret []
  | x :: l' => let* a := f x in let* b := omap_all f l' in Ret (a :: b)
  end.

(** BlindingFactor.IsNull: all bytes zero. *)
Definition is_null (b : bytes) : bool := forallb (fun x => x =? 0) b.
(** Slate.cpp:304-356. [featureArgsOpt.value()] of an absent value throws (with assertions enabled the
    assertion before it fails). *)
Definition Slate_ToJSON (s : slate) : outcome json_slate :=
  let* fee := (if Fee_eqb (sl_fee s) (mkFee 0 0) then Ret None else omap Some (Fee_ToJSON (sl_fee s))) in
  let* feat := (if sl_kernelFeatures s =? DEFAULT_KERNEL then Ret (None, None)
                else match sl_featureArgs s with
                     | Some a => Ret (Some (sl_kernelFeatures s), Some (mkJArgs (fa_lockHeight a)))
                     | None => Throw
                     end) in
  Ret (mkJSlate (sl_version s, sl_blockVersion s) (sl_id s) (sl_stage s)
    (if is_null (sl_offset s) then None else Some (sl_offset s))
    (if sl_numParticipants s =? 2 then None else Some (sl_numParticipants s))
    fee (if sl_amount s =? 0 then None else Some (sl_amount s)) (fst feat) (snd feat)
    (if sl_ttl s =? 0 then None else Some (sl_ttl s))
    (sl_sigs s) (map Com_ToJSON (sl_commitments s)) (sl_proof s)).

(** Slate.cpp:358-411. The feature arguments are not read (line 390). *)
Definition Slate_FromJSON (j : json_slate) : outcome slate :=
  let* offset := (match js_off j with
                  | Some o => if nlen o =? 32 then Ret o else Throw
                  | None => Ret (repeat 0 32)
                  end) in
  let* sigs := omap_all Sig_FromJSON (js_sigs j) in
  let* coms := omap_all Com_FromJSON (js_coms j) in
  let* proof := (match js_proof j with Some p => omap Some (Proof_FromJSON p) | None => Ret None end) in
  Ret (mkSlate (js_id j) (js_sta j) (fst (js_ver j) mod W16) (snd (js_ver j) mod W16)
    (getN (js_num_parts j) 2 mod W8) (getN (js_ttl j) 0) (getN (js_feat j) 0 mod W8) None offset
    (getN (js_amt j) 0) (match js_fee j with Some f => Fee_FromJSON f | None => mkFee 0 0 end)
    sigs coms proof).

(** * Stored slates (src/Wallet/WalletDB/Sqlite/Tables/SlateTable.cpp) *)
(** A row of the slates of one id, in the order the database returns them: the stage, the slate
    ([None] when the IV has the wrong size or decryption or decoding throws) and the armored text. *)
Record slate_row := mkRow { r_stage : stage; r_slate : option slate; r_armored : option bytes }.

(** SlateTable.cpp:122-168. *)
Definition latest_step (acc : stage * (option slate * bytes)) (r : slate_row) : stage * (option slate * bytes) :=
  if Stage_ToByte (r_stage r) <? Stage_ToByte (fst acc) then acc
  else match r_slate r with
       | Some s => (r_stage r, (Some s, match r_armored r with Some a => a | None => [] end))
       | None => acc
       end.
Definition LoadLatestSlate (rows : list slate_row) : option slate * bytes :=
  snd (fold_left latest_step rows (S_NONE, (None, []))).

(** SlateTable.cpp:170-193. The highest stage seen is not recorded. *)
Definition armored_step (acc : bytes) (r : slate_row) : bytes :=
  match r_armored r with
  | Some a => if Stage_ToByte S_NONE <=? Stage_ToByte (r_stage r) then a else acc
  | None => acc
  end.
Definition LoadArmoredSlatepack (rows : list slate_row) : bytes := fold_left armored_step rows [].
