(** Model of the JSON form of transactions and of the method push_transaction, by which wallets and others hand a transaction to a node:
    src/Core/Models/{Transaction,TransactionBody,TransactionInput,TransactionOutput,TransactionKernel}.cpp, include/Core/Models/Features.h,
    include/Core/Util/JsonUtil.h, src/API/Node/Handlers/PushTransactionHandler.h, src/Server/Node/NodeClients/RPCNodeClient.h.
    Simplifications: JSON values are those of [QueryModel] (numbers are integers), the fields of an object are listed in the order of its keys, which
    is the order jsoncpp keeps them in. *)
From Coq Require Import Ascii String.
From Verif Require Import Base Bytes FileModel TextModel CodecModel QueryModel.
Local Open Scope N_scope.
Local Open Scope list_scope.

(** ** JsonUtil.h *)
(** 57-71 GetRequiredField; jsoncpp throws for a value that is neither null nor an object *)
Definition GetRequiredField (node : json) (key : bytes) : outcome json :=
  match node with JObj fields => let v := get fields key in if isNull v then Throw else Ret v | _ => Throw end.
(** Json::Value::asString. Simplification: of numbers and booleans it gives their text, which none of the callers accepts; here they throw at once. *)
Definition asString (node : json) : outcome bytes := match node with JStr s => Ret s | _ => Throw end.
(** 41-55 ConvertToVector *)
Definition ConvertToVector (node : json) (expectedSize : N) : outcome bytes :=
  let* s := asString node in let* d := FromHex s in if nlen d =? expectedSize then Ret d else Throw.
(** 36-39 ConvertToJSON, and those for hashes and commitments that call it *)
Definition ConvertToJSON (d : bytes) : json := JStr (ConvertToHex d).
(** 222-225 GetCommitment, 291-294 GetCompactSignature, 309-312 GetRangeProof *)
Definition GetVector (parent : json) (key : bytes) (size : N) : outcome bytes := let* v := GetRequiredField parent key in ConvertToVector v size.
(** 351-365 ConvertToUInt64; std::stoull throws exceptions of its own *)
Definition ConvertToUInt64 (j : json) : outcome N :=
  match j with
  | JNum z => if ((0 <=? z) && (z <? 2 ^ 64))%Z%bool then Ret (Z.to_N z) else Throw
  | JStr s => match stoull false s with Number n => Ret n | _ => Throw end
  | _ => Throw
  end.
(** 373-384 GetUInt64Opt with value_or(0) *)
Definition GetUInt64Or0 (parent : json) (key : bytes) : outcome N :=
  let* o := GetOptionalField parent key in match o with Some v => ConvertToUInt64 v | None => Ret 0 end.
(** The elements of a list: Json::Value::size is 0 for everything that is neither list nor object, and get with an index throws for an object. *)
Definition elements (j : json) : outcome (list json) :=
  match j with JArr l => Ret l | JObj (_ :: _) => Throw | _ => Ret [] end.
Fixpoint read_all {A} (f : json -> outcome A) (l : list json) : outcome (list A) :=
  match l with [] => Ret [] | j :: l' => let* x := f j in let* r := read_all f l' in Ret (x :: r) end.
(** A Json::Value to which nothing is appended stays null. *)
Definition list_json (l : list json) : json := match l with [] => JNull | _ => JArr l end.

(** ** Features.h *)
(** StringUtil.h:86-97 *)
Definition toupper (c : N) : N := if (97 <=? c) && (c <=? 122) then c - 32 else c.
Definition ToUpper (s : bytes) : bytes := map toupper s.
(** 22-33 OutputFeatures::ToString *)
Definition OutputFeatures_ToString (f : N) : bytes := if f =? 0 then chars "Plain" else if f =? 1 then chars "Coinbase" else [].
(** 35-48 OutputFeatures::FromString *)
Definition OutputFeatures_FromString (s : bytes) : outcome N :=
  let upper := ToUpper s in
  if bytes_eqb upper (chars "TRANSACTION") || bytes_eqb upper (chars "PLAIN") then Ret 0
  else if bytes_eqb upper (chars "COINBASE") then Ret 1 else Throw.
(** 68-83 KernelFeatures::ToString *)
Definition KernelFeatures_ToString (f : N) : bytes :=
  if f =? DEFAULT_KERNEL then chars "Plain" else if f =? COINBASE_KERNEL then chars "Coinbase"
  else if f =? HEIGHT_LOCKED then chars "HeightLocked" else if f =? NO_RECENT_DUPLICATE then chars "NoRecentDuplicate" else [].
(** 85-105 KernelFeatures::FromString *)
Definition KernelFeatures_FromString (s : bytes) : outcome N :=
  if bytes_eqb s (chars "Plain") then Ret DEFAULT_KERNEL else if bytes_eqb s (chars "Coinbase") then Ret COINBASE_KERNEL
  else if bytes_eqb s (chars "HeightLocked") then Ret HEIGHT_LOCKED else if bytes_eqb s (chars "NoRecentDuplicate") then Ret NO_RECENT_DUPLICATE else Throw.

Section TX.
Variable Blake2b : bytes -> bytes.
(** secp256k1_ecdsa_signature_serialize_compact (AggSig.cpp:334-345) and ..._parse_compact, which may fail *)
Variable compact : bytes -> bytes.
Variable parse_compact : bytes -> option bytes.

(** TransactionInput.cpp:39-45, 47-52 *)
Definition Input_ToJSON (i : TransactionInput) : json :=
  JObj [(chars "commit", ConvertToJSON (i_commitment i)); (chars "features", JStr (OutputFeatures_ToString (i_features i)))].
Definition Input_FromJSON (j : json) : outcome TransactionInput :=
  let* fj := GetRequiredField j (chars "features") in let* s := asString fj in let* f := OutputFeatures_FromString s in
  let* c := GetVector j (chars "commit") 33 in Ret (mkInput f c).
(** TransactionOutput.cpp:43-50, 52-58 *)
Definition Output_ToJSON (o : TransactionOutput) : json :=
  JObj [(chars "commit", ConvertToJSON (o_commitment o)); (chars "features", JStr (OutputFeatures_ToString (o_features o))); (chars "proof", ConvertToJSON (o_rangeProof o))].
Definition Output_FromJSON (j : json) : outcome TransactionOutput :=
  let* fj := GetRequiredField j (chars "features") in let* s := asString fj in let* f := OutputFeatures_FromString s in
  let* c := GetVector j (chars "commit") 33 in let* p := GetVector j (chars "proof") MAX_PROOF_SIZE in Ret (mkOutput f c p).
(** TransactionKernel.cpp:108-128. Attributes that nothing is assigned to stay null. *)
Definition Kernel_ToJSON (k : TransactionKernel) : outcome json :=
  let* fee := (if negb (k_features k =? COINBASE_KERNEL) then let* n := Fee_ToJSON (k_fee k) in Ret [(chars "fee", JNum (Z.of_N n))] else Ret []) in
  let lock := if k_features k =? HEIGHT_LOCKED then [(chars "lock_height", JNum (Z.of_N (k_lockHeight k)))] else [] in
  let attrs := match fee ++ lock with [] => JNull | l => JObj l end in
  Ret (JObj [(chars "excess", ConvertToJSON (k_excessCommitment k)); (chars "excess_sig", ConvertToJSON (compact (k_excessSignature k)));
             (chars "features", JObj [(KernelFeatures_ToString (k_features k), attrs)])]).
(** TransactionKernel.cpp:130-158. [front] of an empty vector is undefined, of the names (133) and of the parsed signatures (Crypto.cpp:154-159). *)
Definition Kernel_FromJSON (j : json) : outcome TransactionKernel :=
  let* features_json := GetRequiredField j (chars "features") in
  match features_json with
  | JObj [] => Fault
  | JObj ((feature_str, feature_json) :: _) =>
      let* features := KernelFeatures_FromString feature_str in
      let* fee_opt := GetOptionalField feature_json (chars "fee") in
      let* fee := (match fee_opt with Some f => omap Fee_FromJSON (ConvertToUInt64 f) | None => Ret (mkFee 0 0) end) in
      let* lockHeight := GetUInt64Or0 feature_json (chars "lock_height") in
      let* c := GetVector j (chars "excess") 33 in
      let* cs := GetVector j (chars "excess_sig") 64 in
      match parse_compact cs with
      | None => Fault
      | Some s => if (features =? NO_RECENT_DUPLICATE) && ((lockHeight =? 0) || (WEEK_HEIGHT <? lockHeight)) then Throw else Ret (mkKernel features fee lockHeight c s)
      end
  | _ => Throw
  end.
(** TransactionBody.cpp:89-115 *)
Fixpoint kernels_json (l : list TransactionKernel) : outcome (list json) :=
  match l with [] => Ret [] | k :: l' => let* x := Kernel_ToJSON k in let* r := kernels_json l' in Ret (x :: r) end.
Definition Body_ToJSON (b : TransactionBody) : outcome json :=
  let* kernels := kernels_json (b_kernels b) in
  Ret (JObj [(chars "inputs", list_json (map Input_ToJSON (b_inputs b))); (chars "kernels", list_json kernels); (chars "outputs", list_json (map Output_ToJSON (b_outputs b)))]).
(** TransactionBody.cpp:117-148, with the constructor 9-16: sorted twice *)
Definition Body_FromJSON (j : json) : outcome TransactionBody :=
  let* ij := GetRequiredField j (chars "inputs") in let* il := elements ij in let* inputs := read_all Input_FromJSON il in
  let* oj := GetRequiredField j (chars "outputs") in let* ol := elements oj in let* outputs := read_all Output_FromJSON ol in
  let* kj := GetRequiredField j (chars "kernels") in let* kl := elements kj in let* kernels := read_all Kernel_FromJSON kl in
  Ret (Body_sorted Blake2b (sort_by (input_hash Blake2b) inputs) (sort_by (output_hash Blake2b) outputs) (sort_by (kernel_hash Blake2b) kernels)).
(** Transaction.cpp:48-54, 56-65 *)
Definition Transaction_ToJSON (t : Transaction) : outcome json :=
  let* body := Body_ToJSON (t_body t) in Ret (JObj [(chars "body", body); (chars "offset", ConvertToJSON (t_offset t))]).
Definition Transaction_FromJSON (j : json) : outcome Transaction :=
  let* oj := GetRequiredField j (chars "offset") in let* offset := ConvertToVector oj 32 in
  let* bj := GetRequiredField j (chars "body") in let* body := Body_FromJSON bj in Ret (mkTx offset body).

(** ** PushTransactionHandler.h *)
(** What the handler does besides answering. *)
Inductive Effect := AddedToPool (t : Transaction) (fluff : bool) (success : bool) | Announced (kernelHash : bytes).
(** [AnsweredOk]: the result {"Ok": null}; [AnsweredError]: one of the errors it builds; [Raised]: an exception, answered by the server (C66);
    [Undefined]: undefined behaviour. *)
Inductive Reply := AnsweredOk | AnsweredError | Raised | Undefined.
(** Json::Value::asBool *)
Definition asBool (j : json) : outcome bool :=
  match j with JNull => Ret false | JBool b => Ret b | JNum z => Ret (negb (z =? 0)%Z) | _ => Throw end.
(** TransactionValidator::Validate at the height of the confirmed chain: true if it does not throw (C27, C29, C46); AddTransaction: true for SUCCESS (C63). *)
Variable validate : Transaction -> bool.
Variable add : Transaction -> bool -> bool.
(** P2PServerImpl.cpp:155-162 BroadcastTransaction: to all connections *)
Definition BroadcastTransaction (t : Transaction) : list Effect := map (fun k => Announced (kernel_hash Blake2b k)) (b_kernels (t_body t)).
(** PushTransactionHandler.h:17-53 *)
Definition PushTransaction (params : option json) : Reply * list Effect :=
  match params with
  | Some (JArr (p0 :: rest)) =>
      if isNull p0 then (AnsweredError, []) else
      match Transaction_FromJSON p0 with
      | Throw => (Raised, [])
      | Fault => (Undefined, [])
      | Ret t =>
          match (match rest with p1 :: _ => if isNull p1 then Ret false else asBool p1 | [] => Ret false end) with
          | Ret fluff =>
              if negb (validate t) then (Raised, []) else
              if add t fluff then (AnsweredOk, AddedToPool t fluff true :: BroadcastTransaction t)
              else (AnsweredError, [AddedToPool t fluff false])
          | _ => (Raised, [])
          end
      end
  | _ => (AnsweredError, [])
  end.
(** RPCNodeClient.h:129-138 PostTransaction: the parameters a wallet sends *)
Definition PostParams (t : Transaction) (fluff : bool) : outcome json := let* j := Transaction_ToJSON t in Ret (JArr [j; JBool fluff]).
End TX.
