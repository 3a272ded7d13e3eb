(** The outputs of a wallet in a chain, and how a chain grows. *)
From Verif Require Import Base Bytes ConsensusModel RestoreModel.
Local Open Scope N_scope.

(** The leaf with index [i] of the chain holds an unspent output. *)
Definition unspent (n : Node) (o : OutputDTO) : Prop :=
  nth_error (n_leaves n) (N.to_nat (o_leaf o)) = Some (Some (o_commitment o, o_proof o)) /\ n_position n (o_commitment o) = Some (o_leaf o, o_height o).
(** The table of positions is right, and the last output is unspent: it is of the last block. *)
Definition consistent (n : Node) : Prop :=
  N.of_nat (length (n_leaves n)) < 2 ^ 63 /\
  (forall i c p, nth_error (n_leaves n) i = Some (Some (c, p)) -> exists h, n_position n c = Some (N.of_nat i, h)) /\
  exists x, last (n_leaves n) None = Some x.
(** The chain grew: outputs were appended and spent. *)
Definition grown (n n' : Node) : Prop :=
  (length (n_leaves n) <= length (n_leaves n'))%nat /\
  forall o, unspent n' o -> (N.to_nat (o_leaf o) < length (n_leaves n))%nat -> unspent n o.
(** The wallet can read the range proof: of the new kind, or, in blocks until two weeks after the first hard fork, of the old kind. *)
Definition old_proofs (env : Environment) (height : N) : Prop :=
  height < (match env with FLOONET => 185040 | _ => 262080 end) + 20160.
Definition mine (env : Environment) (k : keychain) (o : OutputDTO) : Prop :=
  RewindRangeProof k (o_commitment o) (o_proof o) ENHANCED <> None \/
  old_proofs env (o_height o) /\ RewindRangeProof k (o_commitment o) (o_proof o) ORIGINAL <> None.
(** What is stored is about the output, with the amount and the path in its range proof. *)
Definition describes (k : keychain) (o : OutputDTO) (x : Restored) : Prop :=
  x_commitment x = o_commitment o /\ x_proof x = o_proof o /\ x_leaf x = o_leaf o /\ x_height x = o_height o /\
  exists type p, RewindRangeProof k (o_commitment o) (o_proof o) type = Some p /\ x_amount x = w_amount p /\ x_path x = ToKeyIndices k (w_message p) type.
