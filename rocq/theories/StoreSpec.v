(** Specification vocabulary for what the wallet reads back (C65). *)
From Verif Require Import Base Bytes FileModel SerialModel KeyPathModel CodecModel CodecSpec SlateCodecModel SlateCodecSpec StoreModel.
Local Open Scope N_scope.
Local Open Scope list_scope.

Definition fits64 (o : option N) : Prop := match o with Some x => x < W64 | None => True end.

(** An output the types of its fields allow, whose key path has no hardened index. *)
Definition output_fits (e : OutputData) : Prop :=
  Forall (fun i => i < 2147483648) (od_path e) /\ length (od_blind e) = 32%nat /\ output_ok (od_output e) /\
  od_amount e < W64 /\ od_status e < 256 /\ fits64 (od_mmrIndex e) /\ fits64 (od_blockHeight e) /\
  match od_walletTxId e with Some id => id < W32 | None => True end /\
  N.of_nat (length (OutputData_Serialize e)) < W64.
(** Nothing in it that the stored form has no room for: position and height are not zero when present,
    and there is at most one label, not empty. *)
Definition output_plain (e : OutputData) : Prop :=
  od_mmrIndex e <> Some 0 /\ od_blockHeight e <> Some 0 /\
  match od_labels e with [] => True | [l] => l <> [] | _ => False end.

(** What is left of an output after it was stored: the same output except that a zero position or
    height is forgotten, and of the labels only the first is kept, if it is not empty. *)
Definition forget_zero (o : option N) : option N := match o with Some 0 => None | _ => o end.
Definition keep_label (l : list bytes) : list bytes := match l with (c :: w) :: _ => [c :: w] | _ => [] end.
Definition output_kept (e : OutputData) : OutputData :=
  mkOD (od_path e) (od_blind e) (od_output e) (od_amount e) (od_status e)
    (forget_zero (od_mmrIndex e)) (forget_zero (od_blockHeight e)) (od_walletTxId e) (keep_label (od_labels e)).

(** A wallet transaction the types of its fields allow. *)
Definition time_fits (t : Z) : Prop := (- 2 ^ 63 <= t < 2 ^ 63)%Z.
Definition wtx_fits (Blake2b : bytes -> bytes) (chain_features : bytes -> N) (t : WalletTx) : Prop :=
  wt_id t < W32 /\ wt_type t < 256 /\ time_fits (wt_created t) /\
  match wt_confirmed t with Some c => time_fits c | None => True end /\
  fits64 (wt_height t) /\ wt_credited t < W64 /\ wt_debited t < W64 /\
  match wt_fee t with Some f => fee_ok f | None => True end /\
  match wt_proof t with Some p => pproof_ok p | None => True end /\
  match wt_transaction t with
  | Some x => length (t_offset x) = 32%nat /\ body_ok Blake2b chain_features 1 (t_body x)
  | None => True
  end.
(** Its times are whole milliseconds (of which the confirmation time is not the epoch itself), the
    height is not zero and the texts are not empty when present. *)
Definition whole_ms (t : Z) : Prop := exists m, (t = m * 1000000)%Z.
Definition wtx_plain (t : WalletTx) : Prop :=
  whole_ms (wt_created t) /\ match wt_confirmed t with Some c => whole_ms c /\ c <> 0%Z | None => True end /\
  wt_height t <> Some 0 /\ wt_address t <> Some [] /\ wt_message t <> Some [].

(** [last_with key k l]: the last element of [l] with key [k], if there is one. *)
Fixpoint last_with {A K} (keq : forall a b : K, {a = b} + {a <> b}) (key : A -> K) (k : K) (l : list A) : option A :=
  match l with
  | [] => None
  | a :: l' => match last_with keq key k l' with
               | Some x => Some x
               | None => if keq (key a) k then Some a else None
               end
  end.

(** Two different inputs with the same hash. *)
Definition collision (Blake2b : bytes -> bytes) : Prop := exists x y, x <> y /\ Blake2b x = Blake2b y.

(** Decryption with the same key and the same 16 random bytes undoes encryption. *)
Definition AES_ok (E : bytes -> bytes -> bytes -> bytes) (D : bytes -> bytes -> bytes -> outcome bytes) : Prop :=
  forall data key iv, length iv = 16%nat -> D (E data key iv) key iv = Ret data.
(** A stored row is shorter than 2^64 bytes. *)
Definition row_short (row : bytes) : Prop := N.of_nat (length row) < W64.

(** A transaction of the wallet that can be stored without loss; a slate id has a text form that parses
    back. *)
Definition wtx_good (Blake2b : bytes -> bytes) (chain_features : bytes -> N) (to_text : bytes -> bytes) (of_text : bytes -> option bytes)
    (t : WalletTx) : Prop :=
  wtx_fits Blake2b chain_features t /\ wtx_plain t /\
  (forall u, wt_slateId t = Some u -> of_text (to_text u) = Some u /\ to_text u <> []) /\
  N.of_nat (length (WalletTx_Serialize to_text t)) < W64.

(** A context that can be stored without loss; every output in it belongs to a transaction. *)
Definition context_good (c : SlateContext) : Prop :=
  length (cx_key c) = 32%nat /\ length (cx_nonce c) = 32%nat /\
  Forall output_fits (cx_inputs c ++ cx_outputs c) /\ Forall output_plain (cx_inputs c ++ cx_outputs c) /\
  Forall (fun e => od_walletTxId e <> None) (cx_inputs c ++ cx_outputs c) /\
  N.of_nat (length (Context_Serialize c)) < W64.

(** The record of a transaction as earlier versions wrote it: format 0 has no texts, 1 has the message only, 2 also the address; none has a proof. *)
Definition old_record (to_text : bytes -> bytes) (format : N) (t : WalletTx) : bytes :=
  Append 1 format ++ Append 4 (wt_id t) ++ Append 1 (wt_type t) ++
  AppendVarStr (match wt_slateId t with Some u => to_text u | None => [] end) ++
  (if format =? 2 then AppendVarStr (match wt_address t with Some a => a | None => [] end) else []) ++
  (if format =? 0 then [] else AppendVarStr (match wt_message t with Some m => m | None => [] end)) ++
  AppendSigned 8 (Z.quot (wt_created t) 1000000) ++
  AppendSigned 8 (match wt_confirmed t with Some c => Z.quot c 1000000 | None => 0%Z end) ++
  Append 8 (match wt_height t with Some h => h | None => 0 end) ++ Append 8 (wt_credited t) ++ Append 8 (wt_debited t) ++
  (match wt_fee t with Some f => Append 1 1 ++ Fee_Serialize f | None => Append 1 0 end) ++
  match wt_transaction t with Some x => Transaction_Serialize 1 x | None => [] end.
(** A transaction that has only what the format can hold. *)
Definition of_format (format : N) (t : WalletTx) : Prop :=
  format <= 2 /\ wt_proof t = None /\ (format <> 2 -> wt_address t = None) /\ (format = 0 -> wt_message t = None).
