(** What the wallet is supposed to do, in exact (unbounded) arithmetic. *)
From Coq Require Import Permutation Sorted.
From Verif Require Import Base Bytes KeyPathModel WalletModel.
Local Open Scope N_scope.

(** the exact sum of the amounts of some coins *)
Definition total (cs : list OutputDataEntity) : N := fold_right (fun c s => c_amount c + s) 0 cs.

(** the fee of a transaction: fee base times weight, where an input weighs 1, an output 21, a kernel 3 *)
Definition fee_of (feeBase : N) (inputs : nat) (outputs kernels : N) : N :=
  feeBase * (N.of_nat inputs + 21 * outputs + 3 * kernels).

(** the coins cover the amount and the fee for spending them *)
Definition covers (amount feeBase outputs kernels : N) (sel : list OutputDataEntity) : Prop :=
  amount + fee_of feeBase (length sel) outputs kernels <= total sel.

(** [sel] is chosen among [coins], each coin at most once *)
Definition chosen_from (sel coins : list OutputDataEntity) : Prop :=
  exists rest, Permutation (sel ++ rest) coins.
(** [sel] consists of the smallest coins: nothing left over is smaller than something chosen *)
Definition smallest_of (sel coins : list OutputDataEntity) : Prop :=
  exists rest, Permutation (sel ++ rest) coins /\
    forall a b, In a sel -> In b rest -> c_amount a <= c_amount b.

(** std::sort with the wallet's comparison: some rearrangement in ascending order of amount *)
Definition sorts (sort : list OutputDataEntity -> list OutputDataEntity) : Prop :=
  forall l, Permutation (sort l) l /\ StronglySorted (fun a b => c_amount a <= c_amount b) (sort l).

(** every amount involved stays below 2^64 *)
Definition no_overflow (coins : list OutputDataEntity) (amount feeBase outputs kernels : N) : Prop :=
  total coins < W64 /\ amount + fee_of feeBase (length coins) outputs kernels < W64 /\
  N.of_nat (length coins) + 21 * outputs + 3 * kernels < W64.

(** *** the tables *)
Definition coms (l : list OutputDataEntity) : list bytes := map c_commitment l.
Definition ids (l : list WalletTx) : list N := map w_id l.
(** outputs are identified by commitment, transactions by an id below the next one *)
Definition wf (d : WalletDB) : Prop :=
  NoDup (coms (d_outputs d)) /\ NoDup (ids (d_txs d)) /\ (forall i, In i (ids (d_txs d)) -> i < d_nextTx d).
(** the outputs found on the chain are different ones, and there are transaction ids left for them *)
Definition node_wf (nv : NodeView) (d : WalletDB) : Prop :=
  NoDup (coms (n_restored nv)) /\ d_nextTx d + N.of_nat (length (n_restored nv)) < W32.

(** *** sending *)
(** the amount in the slate: the one asked for, or everything but the fee *)
Definition requested (sc : SendCriteria) (coins : list OutputDataEntity) (a : N) : Prop :=
  match sc_amount sc with
  | Some x => a = x
  | None => a + fee_of (sc_feeBase sc) (length coins) 1 1 = total coins
  end.
(** the premises under which no arithmetic wraps *)
Definition affordable (sc : SendCriteria) (coins : list OutputDataEntity) : Prop :=
  match sc_amount sc with
  | Some x => sc_strategy sc <> ALL /\ sc_numOutputs sc < 255 /\ no_overflow coins x (sc_feeBase sc) (1 + sc_numOutputs sc) 1
  | None => total coins < W64 /\ fee_of (sc_feeBase sc) (length coins) 1 1 <= total coins /\ N.of_nat (length coins) + 24 < W64
  end.
Definition changes_wanted (sc : SendCriteria) : N := match sc_amount sc with Some _ => sc_numOutputs sc | None => 0 end.

(** *** the balance *)
From Verif Require Import ConsensusModel ValidationModel.
Inductive category := Spendable | Awaiting | Immature | Locked.
Section Categories.
Variable env : Environment.
Variable min_confs : N.
(** how many blocks must be on top of a coinbase before it can be spent *)
Definition coinbase_maturity : N := match env with AUTOMATED_TESTING => 25 | _ => 1440 end.
(** a coin that can be spent in a block at height [h] *)
Definition mature (h : N) (o : OutputDataEntity) : Prop :=
  let oh := match c_height o with Some x => x | None => 0 end in
  if c_features o =? COINBASE_OUTPUT then oh + coinbase_maturity < h else oh + min_confs <= h.
Definition counted_as (h : N) (k : category) (o : OutputDataEntity) : Prop :=
  match k with
  | Spendable => c_status o = SPENDABLE /\ mature h o
  | Immature => c_status o = SPENDABLE /\ ~ mature h o
  | Awaiting => c_status o = NO_CONFIRMATIONS
  | Locked => c_status o = LOCKED
  end.
End Categories.
(** [x] is the sum of the amounts of the coins having property [P] *)
Inductive sum_of (P : OutputDataEntity -> Prop) : list OutputDataEntity -> N -> Prop :=
| sum_nil : sum_of P [] 0
| sum_take c l x : P c -> sum_of P l x -> sum_of P (c :: l) (c_amount c + x)
| sum_skip c l x : ~ P c -> sum_of P l x -> sum_of P (c :: l) x.

(** *** locking *)
(** a transaction that may still reach the chain, or has, and was not cancelled *)
Definition live (t : WalletTx) : Prop :=
  w_type t = SENDING_STARTED \/ w_type t = SENDING_FINALIZED \/ w_type t = SENT.
Definition spends (t : WalletTx) (c : bytes) : Prop := exists x, w_tx t = Some x /\ In c (fst x).
(** a wallet just created *)
Definition new_wallet (random : N) : WalletDB := mkDB [] [] 0 0 (CreateAccounts random) [] [].

Section History.
Variable sort : list OutputDataEntity -> list OutputDataEntity.
Variable env : Environment.
Variable min_confs : N.
Variable commit_of : KeyChainPath -> N -> bytes.
Variable ndebug : bool.
(** the chain gives back no coin that a live transaction has spent (no such reorganisation), and what it
    restores is not locked (OutputRestorer.cpp:98 gives SPENT or SPENDABLE) *)
Definition refresh_ok (nv : NodeView) (d : WalletDB) : Prop :=
  node_wf nv d /\ Forall (fun o => c_status o <> LOCKED) (n_restored nv) /\
  (forall o t, In o (d_outputs d) -> c_status o = SPENT \/ c_status o = CANCELED -> n_location nv (c_commitment o) <> None ->
               In t (d_txs d) -> live t -> ~ spends t (c_commitment o)).
(** the next [n] key paths make new commitments *)
Definition fresh_paths (n : N) (d : WalletDB) (used : list bytes) : Prop :=
  forall ps a p x, next_paths (N.to_nat n) (d_accounts d) = Ret (ps, a) -> In p ps -> ~ In (commit_of p x) used.
(** what is assumed of the outside world when an operation runs *)
Definition op_ok (d : WalletDB) (op : wallet_op) : Prop :=
  match op with
  | OpSend nv id sc =>
      refresh_ok nv d /\ d_nextTx d + 1 + N.of_nat (length (n_restored nv)) < W32 /\ sc_numOutputs sc < W8 /\
      (forall t, In t (d_txs d) -> w_slate t <> Some id) /\
      fresh_paths (changes_wanted sc) d (coms (d_outputs d) ++ coms (n_restored nv))
  | OpReceive s _ => d_nextTx d + 1 < W32 /\ fresh_paths 1 d (coms (d_outputs d))
  | OpFinalize s _ =>
      (* not of a cancelled transaction, and the receiver adds only outputs, none of them one of our inputs *)
      forall t, tx_by_slate (s_id s) (d_txs d) = Some t ->
        w_type t <> SENT_CANCELED /\ (forall c f, In (c, f) (s_coms s) -> f = true /\ ~ spends t c)
  | OpCancel _ => True
  | OpRefresh nv => refresh_ok nv d
  end.
Fixpoint history (d : WalletDB) (ops : list wallet_op) : Prop :=
  match ops with
  | [] => True
  | op :: rest => op_ok d op /\ history (wallet_step sort env min_confs commit_of ndebug d op) rest
  end.
End History.
