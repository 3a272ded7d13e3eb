(** Which transactions can be written as JSON, and what it means that they arrive. *)
From Verif Require Import Base Bytes FileModel CodecModel CodecSpec QueryModel.
Local Open Scope N_scope.

(** The parameters after the transaction ask for fluff: the first is true, or a number other than 0. *)
Definition asks_fluff (rest : list json) : Prop := exists p more, rest = p :: more /\ (p = JBool true \/ exists z, p = JNum z /\ z <> 0%Z).

Section SPEC.
Variable Blake2b : bytes -> bytes.
Variable compact : bytes -> bytes.
Variable parse_compact : bytes -> option bytes.
(** A plain or height-locked kernel with no fee shift, whose signature has a compact form that can be read. *)
Definition kernel_postable (k : TransactionKernel) : Prop :=
  ((k_features k = 0 /\ k_lockHeight k = 0) \/ (k_features k = 2 /\ k_lockHeight k < 2 ^ 64)) /\ m_shift (k_fee k) = 0 /\ m_fee (k_fee k) < 2 ^ 40 /\
  is_bytes (k_excessCommitment k) /\ length (k_excessCommitment k) = 33%nat /\
  is_bytes (compact (k_excessSignature k)) /\ length (compact (k_excessSignature k)) = 64%nat /\ parse_compact (compact (k_excessSignature k)) = Some (k_excessSignature k).
Definition input_postable (i : TransactionInput) : Prop := i_features i < 2 /\ is_bytes (i_commitment i) /\ length (i_commitment i) = 33%nat.
(** An output with a range proof of full length. *)
Definition output_postable (o : TransactionOutput) : Prop :=
  o_features o < 2 /\ is_bytes (o_commitment o) /\ length (o_commitment o) = 33%nat /\ is_bytes (o_rangeProof o) /\ nlen (o_rangeProof o) = 675.
(** A sorted transaction with at least one input, output and kernel. *)
Definition postable (t : Transaction) : Prop :=
  is_bytes (t_offset t) /\ length (t_offset t) = 32%nat /\
  Forall input_postable (b_inputs (t_body t)) /\ Forall output_postable (b_outputs (t_body t)) /\ Forall kernel_postable (b_kernels (t_body t)) /\
  b_inputs (t_body t) <> [] /\ b_outputs (t_body t) <> [] /\ b_kernels (t_body t) <> [] /\
  sorted_by (input_hash Blake2b) (b_inputs (t_body t)) /\ sorted_by (output_hash Blake2b) (b_outputs (t_body t)) /\ sorted_by (kernel_hash Blake2b) (b_kernels (t_body t)).
End SPEC.
