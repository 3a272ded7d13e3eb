(** Specification vocabulary for C51: which slates are well formed. *)
From Verif Require Import Base Bytes SerialModel SerialSpec CodecModel CodecSpec SlateCodecModel.
Local Open Scope N_scope.

(** A partial signature the library accepts, and gives back. *)
Definition partial_ok (parse : bytes -> option bytes) (compact : bytes -> bytes) (p : bytes) : Prop :=
  exists s, parse p = Some s /\ length s = 64%nat /\ compact s = p.

Definition sig_ok parse compact (g : slate_sig) : Prop :=
  length (sg_excess g) = 33%nat /\ length (sg_nonce g) = 33%nat /\
  match sg_partial g with Some p => partial_ok parse compact p | None => True end.

Definition com_ok (c : slate_com) : Prop :=
  sc_features c < 256 /\ length (sc_commitment c) = 33%nat /\
  match sc_proof c with Some p => (length p <= 675)%nat | None => True end.

Definition pproof_ok (p : slate_proof) : Prop :=
  length (sp_sender p) = 32%nat /\ length (sp_receiver p) = 32%nat /\
  match sp_signature p with Some s => length s = 64%nat | None => True end.

(** Fields every encoding shares. *)
Definition common_ok (s : slate) : Prop :=
  length (sl_id s) = 16%nat /\ sl_stage s <> S_NONE /\ sl_version s < W16 /\ sl_blockVersion s < W16 /\
  sl_numParticipants s < 256 /\ sl_ttl s < W64 /\ sl_kernelFeatures s < 256 /\ length (sl_offset s) = 32%nat /\
  sl_amount s < W64 /\ fee_ok (sl_fee s) /\
  match sl_proof s with Some p => pproof_ok p | None => True end.

(** Feature arguments: absent for a plain kernel, a lock height exactly for a height-locked one. *)
Definition args_ok (s : slate) : Prop :=
  match sl_featureArgs s with
  | None => sl_kernelFeatures s = 0
  | Some a => sl_kernelFeatures s <> 0 /\
      match fa_lockHeight a with Some h => sl_kernelFeatures s = 2 /\ h < W64 | None => sl_kernelFeatures s <> 2 end
  end.

Definition slate_ok parse compact (s : slate) : Prop :=
  common_ok s /\ args_ok s /\
  Forall (sig_ok parse compact) (sl_sigs s) /\ Forall com_ok (sl_commitments s) /\
  (length (sl_sigs s) <= 255)%nat /\ N.of_nat (length (sl_commitments s)) <= 65535.

(** What JSON can carry: plain kernels, fees without priority, full-size proofs, the two kinds of outputs. *)
Definition json_ok (s : slate) : Prop :=
  common_ok s /\ sl_kernelFeatures s = 0 /\ sl_featureArgs s = None /\ m_shift (sl_fee s) = 0 /\
  Forall (fun g => length (sg_excess g) = 33%nat /\ length (sg_nonce g) = 33%nat /\
                   match sg_partial g with Some p => length p = 64%nat | None => True end) (sl_sigs s) /\
  Forall (fun c => sc_features c <= 1 /\ length (sc_commitment c) = 33%nat /\
                   match sc_proof c with Some p => length p = 675%nat | None => True end) (sl_commitments s).

(** Two slates agree on everything but block version and feature arguments. *)
Definition same_but_version_and_args (a b : slate) : Prop :=
  sl_id a = sl_id b /\ sl_stage a = sl_stage b /\ sl_version a = sl_version b /\ sl_amount a = sl_amount b /\
  sl_fee a = sl_fee b /\ sl_offset a = sl_offset b /\ sl_numParticipants a = sl_numParticipants b /\
  sl_kernelFeatures a = sl_kernelFeatures b /\ sl_ttl a = sl_ttl b /\ sl_sigs a = sl_sigs b /\
  sl_commitments a = sl_commitments b /\ sl_proof a = sl_proof b.
