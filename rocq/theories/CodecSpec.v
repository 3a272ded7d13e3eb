(** Specification vocabulary for the wire formats (C12-C15): which values are well formed. *)
From Coq Require Import Sorted.
From Verif Require Import Base Bytes SerialModel MMRIndexModel CodecModel.
Local Open Scope N_scope.

(** The number whose base-[2^e] digits are the nonces, first nonce least significant. *)
Fixpoint pack_value (e : N) (nonces : list N) : N :=
  match nonces with [] => 0 | x :: r => x + 2 ^ e * pack_value e r end.

Definition fee_ok (f : Fee) : Prop := m_shift f < 16 /\ m_fee f < 2 ^ 40.

Definition pow_fields_ok (p : ProofOfWork) : Prop :=
  1 <= m_edgeBits p <= 63 /\ length (m_proofNonces p) = 42%nat /\ Forall (fun n => n < 2 ^ m_edgeBits p) (m_proofNonces p).

Definition header_fields_ok (h : BlockHeader) : Prop :=
  h_version h < W16 /\ h_height h < W64 /\ (- 2 ^ 63 <= h_timestamp h < 2 ^ 63)%Z /\
  length (h_previousBlockHash h) = 32%nat /\ length (h_previousRoot h) = 32%nat /\ length (h_outputRoot h) = 32%nat /\
  length (h_rangeProofRoot h) = 32%nat /\ length (h_kernelRoot h) = 32%nat /\ length (h_totalKernelOffset h) = 32%nat /\
  h_outputMMRSize h < W64 /\ h_kernelMMRSize h < W64 /\ h_totalDifficulty h < W64 /\ h_scalingDifficulty h < W32 /\
  h_nonce h < W64 /\ pow_fields_ok (h_proofOfWork h).

(** Kernels: the four kinds, and the fields each kind has (at version 1 all fields are written). *)
Definition kernel_ok (v : N) (k : TransactionKernel) : Prop :=
  length (k_excessCommitment k) = 33%nat /\ length (k_excessSignature k) = 64%nat /\
  fee_ok (k_fee k) /\ k_lockHeight k < W64 /\ k_features k < 4 /\
  (k_features k = 3 -> 1 <= k_lockHeight k <= 10080) /\
  (2 <= v -> k_features k = 0 -> k_lockHeight k = 0) /\
  (2 <= v -> k_features k = 1 -> k_lockHeight k = 0 /\ k_fee k = mkFee 0 0).

Definition output_ok (o : TransactionOutput) : Prop :=
  o_features o < 256 /\ length (o_commitment o) = 33%nat /\ (length (o_rangeProof o) <= 675)%nat.

(** At version 3 and later an input's features are those of the output it names. *)
Definition input_ok (chain_features : bytes -> N) (v : N) (i : TransactionInput) : Prop :=
  i_features i < 256 /\ length (i_commitment i) = 33%nat /\
  (3 <= v -> i_features i = chain_features (i_commitment i)).

(** Sorted by key: no element is smaller than its predecessor. *)
Definition sorted_by {A} (key : A -> bytes) (l : list A) : Prop := Sorted (fun a b => bytes_ltb (key b) (key a) = false) l.

Definition body_ok (Blake2b : bytes -> bytes) (chain_features : bytes -> N) (v : N) (b : TransactionBody) : Prop :=
  Forall (input_ok chain_features v) (b_inputs b) /\ Forall output_ok (b_outputs b) /\ Forall (kernel_ok v) (b_kernels b) /\
  sorted_by (input_hash Blake2b) (b_inputs b) /\ sorted_by (output_hash Blake2b) (b_outputs b) /\
  sorted_by (kernel_hash Blake2b) (b_kernels b).

Definition compact_ok (v : N) (c : CompactBlock) : Prop :=
  cb_nonce c < W64 /\ Forall output_ok (cb_outputs c) /\ Forall (kernel_ok v) (cb_kernels c) /\
  Forall (fun id => length id = 6%nat) (cb_shortIds c).
