(** What compact blocks are about, without the functions of the model: the block a miner makes of transactions. *)
From Verif Require Import Base Bytes CodecModel ValidationModel.
Local Open Scope N_scope.

(** [b] is made of its coinbase (outputs and kernels with the coinbase feature) and the transactions [ts]: it has their kernels, and their
    inputs and outputs except those spent within the block. *)
Definition made_of (b : FullBlock) (ts : list Transaction) : Prop :=
  let body := fb_body b in
  let spent i := exists t, In t ts /\ In i (b_inputs (t_body t)) in
  let created o := (exists t, In t ts /\ In o (b_outputs (t_body t))) \/ (In o (b_outputs body) /\ output_IsCoinbase o = true) in
  (forall i, In i (b_inputs body) <-> spent i /\ ~ (exists o, created o /\ o_commitment o = i_commitment i)) /\
  (forall o, In o (b_outputs body) <-> created o /\ ~ (exists i, spent i /\ i_commitment i = o_commitment o)) /\
  (forall k, In k (b_kernels body) <-> (exists t, In t ts /\ In k (b_kernels (t_body t))) \/ (In k (b_kernels body) /\ kernel_IsCoinbase k = true)).

(** Different elements of [l] have different hashes. *)
Definition collision_free {A} (hash : A -> bytes) (l : list A) : Prop := forall x y, In x l -> In y l -> hash x = hash y -> x = y.
