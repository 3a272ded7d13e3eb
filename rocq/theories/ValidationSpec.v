(** Specification for C21, C27, C29 and C46: weights over unbounded integers, values behind
    commitments, and distinctness, without reference to the validators. *)
From Verif Require Import Base Bytes CodecModel.
Local Open Scope Z_scope.

Definition zlen {A} (l : list A) : Z := Z.of_nat (length l).
Definition sumZ (l : list Z) : Z := fold_right Z.add 0 l.

(** Weight of a body: since the fourth fork, and before it. *)
Definition weight_since_v5 (b : TransactionBody) : Z :=
  zlen (b_inputs b) + 21 * zlen (b_outputs b) + 3 * zlen (b_kernels b).
Definition weight_before_v5 (b : TransactionBody) : Z :=
  Z.max 1 (4 * zlen (b_outputs b) + zlen (b_kernels b) - zlen (b_inputs b)).
Definition max_weight : Z := 40000.

(** * Values behind commitments
    [opens c v r] is read: somebody who knows the value [v] and the blinding factor [r] can
    open the commitment [c] to them. A discrete-log relation between the generators is the
    same as a commitment that opens to two different values. The difference is kept below the
    group order, so that it is not just a multiple of it. *)
Definition binding_broken (opens : bytes -> Z -> Z -> Prop) : Prop :=
  exists c v1 r1 v2 r2, opens c v1 r1 /\ opens c v2 r2 /\ v1 <> v2 /\ Z.abs (v1 - v2) < 2 ^ 200.

Definition open_all (opens : bytes -> Z -> Z -> Prop) (cs : list bytes) (os : list (Z * Z)) : Prop :=
  Forall2 (fun c o => opens c (fst o) (snd o)) cs os.

(** What is assumed of libsecp256k1-zkp: sums of commitments open to sums; a transparent
    commitment opens to its value, a commitment to zero to zero; whoever made a valid range
    proof knows an opening with a 64-bit value; whoever made a valid kernel signature knows an
    opening of the excess to zero. *)
Record sound_crypto (opens : bytes -> Z -> Z -> Prop)
  (AddCommitments : list bytes -> list bytes -> outcome bytes)
  (CommitTransparent : N -> bytes) (CommitBlinded : N -> bytes -> bytes)
  (VerifyRangeProofs : list (bytes * bytes) -> bool)
  (VerifyKernelSignatures : list bytes -> list bytes -> list bytes -> bool) : Prop := {
  sc_add : forall pos neg c po no, AddCommitments pos neg = Ret c ->
    open_all opens pos po -> open_all opens neg no ->
    opens c (sumZ (map fst po) - sumZ (map fst no)) (sumZ (map snd po) - sumZ (map snd no));
  sc_transparent : forall v, (v < W64)%N -> opens (CommitTransparent v) (Z.of_N v) 0;
  sc_blinded : forall r, exists x, opens (CommitBlinded 0%N r) 0 x;
  sc_range : forall l c p, VerifyRangeProofs l = true -> In (c, p) l ->
    exists v r, opens c v r /\ 0 <= v < 2 ^ 64;
  sc_signature : forall sigs excesses msgs e, VerifyKernelSignatures sigs excesses msgs = true ->
    In e excesses -> exists x, opens e 0 x }.

(** [value] gives every one of [cs] a 64-bit value it can be opened to. *)
Definition values (opens : bytes -> Z -> Z -> Prop) (value : bytes -> Z) (cs : list bytes) : Prop :=
  forall c, In c cs -> 0 <= value c < 2 ^ 64 /\ exists r, opens c (value c) r.
Definition total (value : bytes -> Z) (cs : list bytes) : Z := sumZ (map value cs).

Definition input_commitments (b : TransactionBody) : list bytes := map i_commitment (b_inputs b).
Definition output_commitments (b : TransactionBody) : list bytes := map o_commitment (b_outputs b).
Definition total_fees (b : TransactionBody) : Z := sumZ (map (fun k => Z.of_N (m_fee (k_fee k))) (b_kernels b)).
(** 60 coins of 10^9 each. *)
Definition block_reward : Z := 60000000000.

(** Two different inputs with the same hash. *)
Definition collision (hash : bytes -> bytes) : Prop := exists x y, x <> y /\ hash x = hash y.
