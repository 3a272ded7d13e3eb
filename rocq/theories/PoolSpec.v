(** Specification for C31, C32 and C33. *)
From Verif Require Import Base Bytes CodecModel ConsensusModel ValidationModel UtxoModel PoolModel.
Local Open Scope N_scope.

(** A transaction has no input and no kernel of the block. *)
Definition shares_nothing (b : FullBlock) (t : Transaction) : Prop :=
  (forall i, In i (b_inputs (t_body t)) -> ~ In i (b_inputs (fb_body b))) /\
  (forall k, In k (b_kernels (t_body t)) -> ~ In k (b_kernels (fb_body b))).
(** Different transactions of [ts] have different hashes. *)
Definition distinct_hashes (hash : Transaction -> bytes) (ts : list Transaction) : Prop :=
  forall t t', In t ts -> In t' ts -> hash t = hash t' -> t = t'.

Section Spec.
Variable Blake2b : bytes -> bytes.
Variable VRP : list (bytes * bytes) -> bool.
Variable VKS : list bytes -> list bytes -> list bytes -> bool.
Variable AddC : list bytes -> list bytes -> outcome bytes.
Variable CT : N -> bytes.
Variable CB : N -> bytes -> bytes.
Variable AddBF : list bytes -> list bytes -> outcome bytes.
Variable env : Environment.
Variable fee_base : N.
Variable stemProbability embargoSeconds : N.

(** [t] is a consistent transaction for a block of that height (C46, C27, C21) and spends only what is unspent (C20). *)
Definition acceptable (d : blockdb) (s : txhashset) (height : N) (t : Transaction) : Prop :=
  Transaction_Validate Blake2b VRP VKS AddC CT CB env t height = Ret tt /\ IsValid env d s t = Ret true.
(** The aggregate (C29) of the transactions is. *)
Definition acceptable_together (d : blockdb) (s : txhashset) (height : N) (ts : list Transaction) : Prop :=
  exists a, Aggregate Blake2b AddBF ts = Ret a /\ acceptable d s height a.
(** Each transaction of the list together with those before it and with [others]. *)
Definition each_with_earlier (d : blockdb) (s : txhashset) (height : N) (others : list Transaction) (ts : list Transaction) : Prop :=
  forall before t after, ts = before ++ t :: after -> acceptable_together d s height (before ++ others ++ [t]).

(** What may happen to the pools. *)
Inductive pool_event :=
| PAdd (d : blockdb) (set : option txhashset) (t : txptr) (ty : EPoolType) (lastConfirmed : BlockHeader) (random : N)
| PBlock (d : blockdb) (s : txhashset) (flushed : BlockHeader) (b : FullBlock)
| PStem (w : world) (relay success : bool) (fresh : N)
| PFluff (w : world) (fresh : N)
| PExpired (w : world) (now : Z) (random : N).
(** What leaves the node, and the pools afterwards. *)
Definition pool_step (e : pool_event) (p : txpool) : outcome (list sent) * txpool :=
  match e with
  | PAdd d set t ty tip random =>
    let '(r, p') := AddTransaction Blake2b VRP VKS AddC CT CB env fee_base stemProbability d set t ty tip random p in (let* _ := r in Ret [], p')
  | PBlock d s flushed b => let '(r, p') := ReconcileBlock Blake2b VRP VKS AddC CT CB AddBF env d s flushed b p in (let* _ := r in Ret [], p')
  | PStem w relay success fresh => ProcessStemPhase Blake2b VRP VKS AddC CT CB AddBF env fee_base stemProbability w relay success fresh p
  | PFluff w fresh => ProcessFluffPhase Blake2b VRP VKS AddC CT CB AddBF env w fresh p
  | PExpired w now random => ProcessExpiredEntries Blake2b VRP VKS AddC CT CB env fee_base stemProbability embargoSeconds w now random p
  end.
Inductive pool_reached : txpool -> Prop :=
| pr_start : pool_reached (mkPool [] [])
| pr_step p e r p' : pool_reached p -> pool_step e p = (r, p') -> r <> Fault -> pool_reached p'.
End Spec.
