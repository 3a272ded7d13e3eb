(** The interactive transaction exchange of the wallet: signing keys, partial and aggregate
    signatures, the three slate builders, and the wallet's store of secret contexts.

    The elliptic curve library (secp256k1-zkp) is not part of /repo.  It is a parameter here:
    a record of operations [Curve].  The four library calls that compute with signatures are
    written out from the library's documented behaviour (Schnorr signatures whose nonce sign is
    fixed by the quadratic character of the y coordinate).

    Simplifications: scalars are integers instead of 32-byte strings; points are elements of the
    curve instead of 33-byte strings (parse failures cannot happen); a range proof is present or
    absent; random draws (offsets, nonces, slate identifiers) and derived blinding factors are
    arguments; payment proofs, feature arguments, armor and logging are left out; of the
    transaction checks only the kernel signature and the kernel sum are kept (the others are in
    ValidationModel.v).  The choice of coins and the change amounts are in WalletModel.v; here
    the chosen inputs and the created change outputs are arguments. *)
From Verif Require Import Base.
Open Scope Z_scope.

(** secp256k1: points, group operations, the two generators, the group order, the x coordinate,
    and whether the y coordinate is a square (external library). *)
Record Curve : Type := mkCurve {
  point : Type;
  zero : point;
  add : point -> point -> point;
  neg : point -> point;
  mul : Z -> point -> point;
  point_eqb : point -> point -> bool;
  gen_g : point;
  gen_h : point;
  order : Z;
  xcoord : point -> Z;
  quad_y : point -> bool
}.

Section Exchange.
Variable C : Curve.
(** The challenge hash of the signature scheme over the x coordinate of the nonce, the public
    key and the message (external library). *)
Variable challenge : Z -> point C -> Z -> Z.
(** TransactionKernel::GetSignatureMessage for a plain kernel: a hash of the fee
    (src/Core/Models/TransactionKernel.cpp:160-181; the bytes are in ValidationModel.v). *)
Variable kernel_message : Z -> Z.

Notation pt := (point C).

(** Sum of a list of points / of integers (library loops). *)
Definition psum (l : list pt) : pt := fold_right (add C) (zero C) l.
Definition zsum (l : list Z) : Z := fold_right Z.add 0 l.

(** A 32-byte string is a scalar when it is below the group order (external library). *)
Definition is_scalar (z : Z) : bool := (0 <=? z) && (z <? order C).

(** Crypto::AddBlindingFactors, src/Crypto/Crypto.cpp:54-80 with
    Pedersen::PedersenBlindSum, src/Crypto/Pedersen.cpp:82-113 *)
Definition AddBlindingFactors (positive negative : list Z) : outcome Z :=
  let p := filter (fun b => negb (b =? 0)) positive in
  let n := filter (fun b => negb (b =? 0)) negative in
  match p, n with
  | [], [] => Ret 0
  | _, _ => if forallb is_scalar (p ++ n) then Ret ((zsum p - zsum n) mod order C) else Throw
  end.

(** PublicKeys::CalculatePublicKey, src/Crypto/PublicKeys.cpp:16-35 *)
Definition CalculatePublicKey (k : Z) : outcome pt :=
  if (0 <? k) && (k <? order C) then Ret (mul C k (gen_g C)) else Throw.

(** PublicKeys::PublicKeySum, src/Crypto/PublicKeys.cpp:37-79 *)
Definition AddPublicKeys (keys : list pt) : outcome pt :=
  let s := psum keys in
  if point_eqb C s (zero C) then Throw else Ret s.

(** secp256k1_pedersen_commit: value times H plus blind times G (external library), reached by
    Pedersen::PedersenCommit, src/Crypto/Pedersen.cpp:26-42 *)
Definition commit_point (value blind : Z) : pt :=
  add C (mul C value (gen_h C)) (mul C blind (gen_g C)).

(** Pedersen::PedersenCommitSum, src/Crypto/Pedersen.cpp:44-80, through Crypto::AddCommitments *)
Definition AddCommitments (positive negative : list pt) : outcome pt :=
  let s := add C (psum positive) (neg C (psum negative)) in
  if point_eqb C s (zero C) then Throw else Ret s.

(** A wallet output with its key, include/Wallet/WalletDB/Models/OutputDataEntity.h:20-70:
    amount, blinding factor; its commitment is the one stored with it. *)
Record coin := mkExCoin { c_value : Z; c_blind : Z }.
Definition c_commit (c : coin) : pt := commit_point (c_value c) (c_blind c).

(** SigningKeys, src/Wallet/SlateBuilder/SigningKeys.h *)
Record SigningKeys := mkKeys {
  secret_key : Z; public_key : pt; secret_nonce : Z; public_nonce : pt }.

(** SlateUtil::CalculateSigningKeys, src/Wallet/SlateBuilder/SlateUtil.h:13-48.
    The nonce drawn at line 44 is an argument. *)
Definition CalculateSigningKeys (inputs outputs : list coin) (tx_offset nonce : Z)
  : outcome SigningKeys :=
  let* in_sum := AddBlindingFactors (map c_blind inputs) [] in
  let* out_sum := AddBlindingFactors (map c_blind outputs) [] in
  let* excess := AddBlindingFactors [out_sum] [in_sum] in
  let* key := AddBlindingFactors [excess] [tx_offset] in
  let* pk := CalculatePublicKey key in
  let* pn := CalculatePublicKey nonce in
  Ret (mkKeys key pk nonce pn).

(** AggSig::CalculatePartialSignature, src/Crypto/AggSig.cpp:99-145: the x coordinate of the
    own public nonce, and the scalar. *)
Definition CalculatePartialSignature (key nonce : Z) (sum_keys sum_nonces : pt) (msg : Z)
  : outcome (Z * Z) :=
  if is_scalar key then
    let e := challenge (xcoord C sum_nonces) sum_keys msg in
    let k := if quad_y C sum_nonces then nonce else - nonce in
    Ret (xcoord C (mul C nonce (gen_g C)), (k + e * key) mod order C)
  else Throw.

(** AggSig::VerifyPartialSignature, src/Crypto/AggSig.cpp:147-176 *)
Definition VerifyPartialSignature (sig : Z * Z) (key sum_keys sum_nonces : pt) (msg : Z) : bool :=
  let e := challenge (xcoord C sum_nonces) sum_keys msg in
  let r := add C (mul C (snd sig) (gen_g C)) (neg C (mul C e key)) in
  negb (point_eqb C r (zero C)) && (xcoord C r =? fst sig).

(** AggSig::AggregateSignatures, src/Crypto/AggSig.cpp:178-215 *)
Definition AggregateSignatures (sigs : list (Z * Z)) (sum_nonces : pt) : outcome (Z * Z) :=
  match sigs with
  | [] => Throw
  | _ => Ret (xcoord C sum_nonces, zsum (map snd sigs) mod order C)
  end.

(** AggSig::VerifyAggregateSignature, src/Crypto/AggSig.cpp:296-312, and the kernel signature
    check of AggSig::VerifyAggregateSignatures, 217-294, for one kernel: the same equation *)
Definition VerifyAggregateSignature (sig : Z * Z) (key : pt) (msg : Z) : bool :=
  let e := challenge (fst sig) key msg in
  let r := add C (mul C (snd sig) (gen_g C)) (neg C (mul C e key)) in
  negb (point_eqb C r (zero C)) && (xcoord C r =? fst sig) && quad_y C r.

(** SlateSignature, include/Wallet/Models/Slate/SlateSignature.h *)
Record SlateSig := mkSig { s_excess : pt; s_nonce : pt; s_partial : option (Z * Z) }.
(** SlateCommitment, include/Wallet/Models/Slate/SlateCommitment.h: commitment, and whether a
    range proof is attached *)
Record SlateCom := mkCom { k_commit : pt; k_proof : bool }.
(** Slate, include/Wallet/Models/Slate/Slate.h:60-93 *)
Record ExSlate := mkSlate {
  x_id : Z; x_amount : Z; x_fee : Z; x_offset : Z;
  x_sigs : list SlateSig; x_coms : list SlateCom }.

(** Slate::GetInputs / GetOutputs, src/Wallet/Models/Slate/Slate.cpp:63-87 *)
Definition slate_inputs (s : ExSlate) : list pt :=
  map k_commit (filter (fun c => negb (k_proof c)) (x_coms s)).
Definition slate_outputs (s : ExSlate) : list pt :=
  map k_commit (filter k_proof (x_coms s)).

(** Slate::AddInput, src/Wallet/Models/Slate/Slate.cpp:89-99 *)
Definition AddInput (c : pt) (l : list SlateCom) : list SlateCom :=
  if existsb (fun k => point_eqb C (k_commit k) c) l then l else l ++ [mkCom c false].
(** Slate::AddOutput, src/Wallet/Models/Slate/Slate.cpp:101-115: a matching entry gets the proof *)
Fixpoint AddOutput (c : pt) (l : list SlateCom) : list SlateCom :=
  match l with
  | [] => [mkCom c true]
  | k :: t => if point_eqb C (k_commit k) c then mkCom (k_commit k) true :: t
              else k :: AddOutput c t
  end.
Definition add_inputs (cs : list coin) (l : list SlateCom) : list SlateCom :=
  fold_left (fun l c => AddInput (c_commit c) l) cs l.
Definition add_outputs (cs : list coin) (l : list SlateCom) : list SlateCom :=
  fold_left (fun l c => AddOutput (c_commit c) l) cs l.

(** Slate::CalculateTotalExcess / CalculateTotalNonce, src/Wallet/Models/Slate/Slate.cpp:117-149 *)
Definition CalculateTotalExcess (sigs : list SlateSig) : outcome pt :=
  AddPublicKeys (map s_excess sigs).
Definition CalculateTotalNonce (sigs : list SlateSig) : outcome pt :=
  AddPublicKeys (map s_nonce sigs).

(** SignatureUtil::VerifyPartialSignatures, src/Wallet/SlateBuilder/SignatureUtil.h:38-75 *)
Definition VerifyPartialSignatures (sigs : list SlateSig) (msg : Z) : outcome bool :=
  let* p := AddPublicKeys (map s_excess sigs) in
  let* r := AddPublicKeys (map s_nonce sigs) in
  Ret (forallb (fun g => match s_partial g with
                         | Some sig => VerifyPartialSignature sig (s_excess g) p r msg
                         | None => true
                         end) sigs).

(** SignatureUtil::AggregateSignatures, src/Wallet/SlateBuilder/SignatureUtil.h:11-36 *)
Definition partials (sigs : list SlateSig) : list (Z * Z) :=
  flat_map (fun g => match s_partial g with Some x => [x] | None => [] end) sigs.
Definition AggregateSlateSignatures (sigs : list SlateSig) : outcome (Z * Z) :=
  let* r := CalculateTotalNonce sigs in
  AggregateSignatures (partials sigs) r.

(** SlateContextEntity, include/Wallet/WalletDB/Models/SlateContextEntity.h:28-46, together with
    the sent slate and the offset of the stored transaction, which are saved in the same batch *)
Record SlateContext := mkContext {
  t_key : Z; t_nonce : Z; t_inputs : list coin; t_outputs : list coin;
  t_sent : ExSlate }.

(** SendSlateBuilder::Build, src/Wallet/SlateBuilder/SendSlateBuilder.cpp:89-200 *)
Definition BuildSend (id amount fee : Z) (inputs change : list coin) (offset nonce : Z)
  : outcome (ExSlate * SlateContext) :=
  let* k := CalculateSigningKeys inputs change offset nonce in
  let slate := mkSlate id amount fee offset [mkSig (public_key k) (public_nonce k) None]
                       (add_outputs change (add_inputs inputs [])) in
  Ret (slate, mkContext (secret_key k) (secret_nonce k) inputs change slate).

(** ReceiveSlateBuilder::BuildSignature, src/Wallet/SlateBuilder/ReceiveSlateBuilder.cpp:107-137 *)
Definition BuildSignature (sigs : list SlateSig) (fee : Z) (k : SigningKeys) : outcome SlateSig :=
  let msg := kernel_message fee in
  let sigs1 := sigs ++ [mkSig (public_key k) (public_nonce k) None] in
  let* p := CalculateTotalExcess sigs1 in
  let* r := CalculateTotalNonce sigs1 in
  let* sig := CalculatePartialSignature (secret_key k) (secret_nonce k) p r msg in
  let own := mkSig (public_key k) (public_nonce k) (Some sig) in
  let* ok := VerifyPartialSignatures (sigs ++ [own]) msg in
  if ok then Ret own else Throw.

(** ReceiveSlateBuilder::AddReceiverData, src/Wallet/SlateBuilder/ReceiveSlateBuilder.cpp:10-87 *)
Definition Receive (slate : ExSlate) (blind offset nonce : Z) : outcome ExSlate :=
  let output := mkExCoin (x_amount slate) blind in
  let* k := CalculateSigningKeys [] [output] offset nonce in
  let* total_offset := AddBlindingFactors [x_offset slate; offset] [] in
  let* own := BuildSignature (x_sigs slate) (x_fee slate) k in
  Ret (mkSlate (x_id slate) (x_amount slate) (x_fee slate) total_offset [own]
               (AddOutput (c_commit output) (x_coms slate))).

(** The stores into the first signature with the sender's excess,
    FinalizeSlateBuilder.cpp:129-134 *)
Fixpoint set_partial (excess : pt) (sig : Z * Z) (l : list SlateSig) : list SlateSig :=
  match l with
  | [] => []
  | g :: t => if point_eqb C (s_excess g) excess
              then mkSig (s_excess g) (s_nonce g) (Some sig) :: t
              else g :: set_partial excess sig t
  end.

(** FinalizeSlateBuilder::AddPartialSignature,
    src/Wallet/SlateBuilder/FinalizeSlateBuilder.cpp:99-145 *)
Definition AddPartialSignature (t : SlateContext) (sigs : list SlateSig) (msg : Z)
  : outcome (list SlateSig) :=
  let* excess := CalculatePublicKey (t_key t) in
  let* nonce := CalculatePublicKey (t_nonce t) in
  let sigs1 := if existsb (fun g => point_eqb C (s_excess g) excess) sigs then sigs
               else sigs ++ [mkSig excess nonce None] in
  let* p := CalculateTotalExcess sigs1 in
  let* r := CalculateTotalNonce sigs1 in
  let* sig := CalculatePartialSignature (t_key t) (t_nonce t) p r msg in
  let sigs2 := set_partial excess sig sigs1 in
  let* ok := VerifyPartialSignatures sigs2 msg in
  if ok then Ret sigs2 else Throw.

(** Transaction with one kernel, include/Core/Models/Transaction.h, TransactionKernel.h *)
Record ExTx := mkExTx {
  e_inputs : list pt; e_outputs : list pt; e_fee : Z; e_excess : pt; e_sig : Z * Z;
  e_offset : Z }.

(** KernelSumValidator::ValidateKernelSums without block sums,
    include/Core/Validation/KernelSumValidator.h:37-98, for the overage of a transaction,
    which is its fee *)
Definition ValidateKernelSums (tx : ExTx) : outcome unit :=
  let outs := if 0 <? e_fee tx then e_outputs tx ++ [commit_point (e_fee tx) 0]
              else e_outputs tx in
  let* utxo_sum := AddCommitments outs (e_inputs tx) in
  let* kernel_sum := AddCommitments [e_excess tx] [] in
  let* total := (if e_offset tx =? 0 then Ret kernel_sum
                 else if is_scalar (e_offset tx)
                 then AddCommitments [kernel_sum; commit_point 0 (e_offset tx)] []
                 else Throw) in
  if point_eqb C utxo_sum total then Ret tt else Throw.

(** FinalizeSlateBuilder::BuildTransaction,
    src/Wallet/SlateBuilder/FinalizeSlateBuilder.cpp:147-211 (null results become the exception
    of line 78) *)
Definition BuildTransaction (slate : ExSlate) (msg : Z) : outcome ExTx :=
  let* sig := AggregateSlateSignatures (x_sigs slate) in
  let* excess := CalculateTotalExcess (x_sigs slate) in
  if VerifyAggregateSignature sig excess msg then
    let tx := mkExTx (slate_inputs slate) (slate_outputs slate) (x_fee slate) excess sig
                     (x_offset slate) in
    let* _ := ValidateKernelSums tx in
    Ret tx
  else Throw.

(** FinalizeSlateBuilder::Finalize, src/Wallet/SlateBuilder/FinalizeSlateBuilder.cpp:15-97, once
    the stored context has been found *)
Definition FinalizeWith (t : SlateContext) (rcv : ExSlate) : outcome (ExSlate * ExTx) :=
  let sent := t_sent t in
  let offset := if x_offset rcv =? 0 then x_offset sent else x_offset rcv in
  let coms := add_outputs (t_outputs t) (add_inputs (t_inputs t) (x_coms rcv)) in
  let msg := kernel_message (x_fee sent) in
  let* sigs := AddPartialSignature t (x_sigs rcv) msg in
  let slate := mkSlate (x_id rcv) (x_amount sent) (x_fee sent) offset sigs coms in
  let* tx := BuildTransaction slate msg in
  Ret (slate, tx).

(** The table of slate contexts of a wallet,
    src/Wallet/WalletDB/Sqlite/Tables/SlateContextTable.cpp:9-72 SaveSlateContext,
    LoadSlateContext: the identifier is the primary key, so an insert under an existing one
    throws; no code removes an entry. *)
Definition ExWallet := list (Z * SlateContext).
Definition GetSlateContext (id : Z) (w : ExWallet) : option SlateContext :=
  option_map snd (find (fun p => fst p =? id) w).

(** Calls on one wallet, and what each successful call puts on record: the nonce it drew or
    signed with, and for a signature the triple that was hashed and signed. *)
Inductive ex_op :=
| OpSend (id amount fee : Z) (inputs change : list coin) (offset nonce : Z)
| OpReceive (slate : ExSlate) (blind offset nonce : Z)
| OpFinalize (rcv : ExSlate).

Inductive ex_event :=
| Sent (id nonce : Z)
| Received (nonce : Z) (signed : Z * pt * Z)
| Finalized (id nonce : Z) (signed : Z * pt * Z).

(** The triple signed for a list of participants: x coordinate of the total nonce, total excess,
    kernel message (the arguments of the challenge hash). *)
Definition signed_triple (sigs : list SlateSig) (fee : Z) : Z * pt * Z :=
  (xcoord C (psum (map s_nonce sigs)), psum (map s_excess sigs), kernel_message fee).

(** Wallet::Send / Receive / Finalize (src/Wallet/WalletManagerImpl.cpp), reduced to the
    contexts and the events.  A call that throws leaves the wallet as it was. *)
Definition ex_step (w : ExWallet) (o : ex_op) : ExWallet * list ex_event :=
  match o with
  | OpSend id amount fee inputs change offset nonce =>
      match GetSlateContext id w, BuildSend id amount fee inputs change offset nonce with
      | None, Ret (_, t) => ((id, t) :: w, [Sent id nonce])
      | _, _ => (w, [])
      end
  | OpReceive slate blind offset nonce =>
      match Receive slate blind offset nonce with
      | Ret r => (w, [Received nonce (signed_triple (x_sigs slate ++ x_sigs r) (x_fee slate))])
      | _ => (w, [])
      end
  | OpFinalize rcv =>
      match GetSlateContext (x_id rcv) w with
      | None => (w, [])
      | Some t =>
          match FinalizeWith t rcv with
          | Ret (s, _) => (w, [Finalized (x_id rcv) (t_nonce t)
                                         (signed_triple (x_sigs s) (x_fee s))])
          | _ => (w, [])
          end
      end
  end.

Fixpoint ex_run (w : ExWallet) (ops : list ex_op) : list ex_event :=
  match ops with
  | [] => []
  | o :: t => let '(w', ev) := ex_step w o in ev ++ ex_run w' t
  end.

End Exchange.
