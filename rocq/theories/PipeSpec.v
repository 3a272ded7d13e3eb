(** What is expected of the pipes for received blocks and transactions, in terms of what was seen from outside. *)
From Verif Require Import Base PipeModel.
Local Open Scope nat_scope.

(** ** Blocks *)
(** The blocks taken into the queue, in order; the calls of AddBlock; the entries that left the queue; the bans. *)
Definition accepted (tr : list BlockEvent) : list BlockEntry := flat_map (fun ev => match ev with Accepted e => [e] | _ => [] end) tr.
Definition called (tr : list BlockEvent) : list BlockEntry := flat_map (fun ev => match ev with Called e _ => [e] | _ => [] end) tr.
Definition removed (tr : list BlockEvent) : list BlockEntry := flat_map (fun ev => match ev with Removed e => [e] | _ => [] end) tr.
Definition bans (tr : list BlockEvent) : list N := flat_map (fun ev => match ev with Banned p => [p] | _ => [] end) tr.
(** The peers whose block the block chain refused. *)
Definition offenders (tr : list BlockEvent) : list N :=
  flat_map (fun ev => match ev with Called e Invalid | Called e Threw => [be_peer e] | _ => [] end) tr.
(** A block that was taken and has not left the queue. *)
Definition waiting (tr : list BlockEvent) (e : BlockEntry) : Prop := In e (accepted tr) /\ ~ In e (removed tr).
(** No block is handed to the block chain before one that came eight places earlier. *)
Definition nearly_in_order (l : list BlockEntry) : Prop := ForallOrdPairs (fun a b => be_ticket a < be_ticket b + 8) l.
(** Steps of the threads of the pipe only: nothing arrives. *)
Definition internal {C} (s : BlockStep C) : Prop := match s with Copy | Run _ | Join => True | _ => False end.

(** ** Transactions *)
Definition tx_accepted (tr : list TxEvent) : list TxEntry := flat_map (fun ev => match ev with TxAccepted e => [e] | _ => [] end) tr.
Definition tx_called (tr : list TxEvent) : list TxEntry := flat_map (fun ev => match ev with TxCalled e _ => [e] | _ => [] end) tr.
Definition broadcasts (tr : list TxEvent) : list (N * N) := flat_map (fun ev => match ev with Broadcast k x => [(k, x)] | _ => [] end) tr.
Definition tx_bans (tr : list TxEvent) : list N := flat_map (fun ev => match ev with TxBanned p => [p] | _ => [] end) tr.
(** What is to be announced: the kernels of each fluffed transaction that was added, to all but the connection it came from. *)
Definition to_announce (tr : list TxEvent) : list (N * N) :=
  flat_map (fun ev => match ev with
    | TxCalled (mkTE cn _ t MEMPOOL) SUCCESS => map (fun k => (k, cn)) (t_kernels t)
    | _ => [] end) tr.
Definition tx_offenders (tr : list TxEvent) : list N := flat_map (fun ev => match ev with TxCalled e INVALID => [te_peer e] | _ => [] end) tr.
