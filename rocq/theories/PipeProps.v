(** C63: blocks and transactions received from peers are handed to the block chain once, in order, and the right peers are banned. *)
From Coq Require Import Permutation.
From Verif Require Import Base PipeModel PipeSpec PipeProofs.
Local Open Scope nat_scope.

(** Blocks, whatever arrives, in whatever order the threads run, whatever the block chain does. Each block that was taken is handed over at
    most once, and not before one that was taken eight places earlier; nothing else is handed over. *)
Theorem C63_blocks_once {C} (AddBlock : C -> Block -> C * Outcome) c h :
  let tr := snd (block_run AddBlock (empty_pipe c) h) in
  map be_ticket (accepted tr) = seq 0 (length (accepted tr)) /\ NoDup (called tr) /\ incl (called tr) (accepted tr) /\ nearly_in_order (called tr).
Proof.
  cbv zeta. pose proof (binv_run AddBlock h _ _ (binv_start c)) as I. cbn [app] in I. pose proof (accepted_nodup _ _ I) as ND.
  destruct (block_run AddBlock (empty_pipe c) h) as [p tr]. cbn [fst snd] in *. destruct I as (A & T & B & O & _).
  assert (X : exists rest, Permutation (called tr ++ rest) (accepted tr)).
  { rewrite A. destruct (bp_batch p) as [l|].
    - destruct B as (_ & _ & F & P). exists (map fst (filter (fun x => negb (snd x)) l) ++ skipn (length l) (bp_queue p)). rewrite P, <- app_assoc.
      apply Permutation_app_head. rewrite <- (firstn_skipn (length l) (bp_queue p)) at 2. rewrite app_assoc. apply Permutation_app_tail. rewrite <- F.
      clear. induction l as [|[e [|]] l IH]; cbn; [constructor | constructor; exact IH |]. rewrite <- Permutation_middle. constructor. exact IH.
    - exists (bp_queue p). rewrite B. reflexivity. }
  destruct X as [rest X]. split; [|split; [|split]].
  - rewrite T. f_equal. rewrite <- (seq_length (bp_count p) 0), <- T. apply map_length.
  - apply (Permutation_NoDup (Permutation_sym X)) in ND. clear -ND. induction (called tr); [constructor|]. cbn in ND. inversion ND as [|? ? NI ND']; subst.
    constructor; [intros H; apply NI, in_app_iff; auto | auto].
  - intros e E. apply (Permutation_in _ X), in_app_iff. auto.
  - exact O.
Qed.
(** The threads are never stuck: from every state they can get to where every block that was taken has been handed over. *)
Theorem C63_blocks_all {C} (AddBlock : C -> Block -> C * Outcome) c h : exists h', Forall internal h' /\
  let tr := snd (block_run AddBlock (empty_pipe c) (h ++ h')) in
  Permutation (called tr) (accepted (snd (block_run AddBlock (empty_pipe c) h))) /\ accepted tr = accepted (snd (block_run AddBlock (empty_pipe c) h)).
Proof.
  pose proof (binv_run AddBlock h _ _ (binv_start c)) as I. cbn [app] in I.
  destruct (drain AddBlock _ _ _ I (Nat.le_refl _)) as (h' & F & Q & BT). exists h'. split; [exact F|]. cbv zeta.
  pose proof (binv_run AddBlock h' _ _ I) as I2. rewrite block_run_app. cbn [snd]. destruct I2 as (A & _ & B & _). rewrite Q, app_nil_r in A. rewrite BT in B.
  assert (N : accepted (snd (block_run AddBlock (fst (block_run AddBlock (empty_pipe c) h)) h')) = []).
  { clear -F. generalize (fst (block_run AddBlock (empty_pipe c) h)). induction F as [|s h' S _ IH]; intros p; [reflexivity|]. cbn [block_run].
    destruct (block_step AddBlock p s) as [p1 ev] eqn:E. specialize (IH p1). destruct (block_run AddBlock p1 h') as [p2 evs]. cbn [snd] in *.
    unfold accepted in *. rewrite flat_map_app, IH, app_nil_r. destruct s; cbn in S; try tauto; cbn [block_step] in E.
    - destruct (bp_batch p), (copy_front 8 (bp_queue p)); injection E as _ <-; reflexivity.
    - destruct (bp_batch p) as [l|]; [|injection E as _ <-; reflexivity]. destruct (nth_error l i) as [[e [|]]|]; try (injection E as _ <-; reflexivity).
      unfold ProcessNewBlock in E. destruct (AddBlock (bp_chain p) (be_block e)) as [c' [| |]]; injection E as _ <-; reflexivity.
    - destruct (bp_batch p) as [l|]; [|injection E as _ <-; reflexivity]. destruct (forallb snd l); injection E as _ <-; [|reflexivity]. apply removed_map. }
  destruct (ev_app (snd (block_run AddBlock (empty_pipe c) h)) (snd (block_run AddBlock (fst (block_run AddBlock (empty_pipe c) h)) h'))) as (E1 & _).
  rewrite E1, N, app_nil_r in A. rewrite E1, N, app_nil_r. split; [rewrite B, A; reflexivity | reflexivity].
Qed.
(** A received block is taken unless one with the same hash waits or is worked on; otherwise it is dropped. *)
Theorem C63_dropped_exact {C} (AddBlock : C -> Block -> C * Outcome) c h peer b :
  let '(p, tr) := block_run AddBlock (empty_pipe c) h in
  let ev := snd (block_step AddBlock p (Receive peer b)) in
  ((exists e, waiting tr e /\ b_hash (be_block e) = b_hash b) -> ev = [Dropped peer b]) /\
  (~ (exists e, waiting tr e /\ b_hash (be_block e) = b_hash b) -> ev = [Accepted (mkBE (length (accepted tr)) peer b)]) /\
  (IsProcessingBlock p (b_hash b) = true <-> exists e, waiting tr e /\ b_hash (be_block e) = b_hash b).
Proof.
  pose proof (binv_run AddBlock h _ _ (binv_start c)) as I. cbn [app] in I. destruct (block_run AddBlock (empty_pipe c) h) as [p tr]. cbn [fst snd] in I.
  assert (W : forall e, In e (bp_queue p) <-> waiting tr e) by (intros e; apply queue_waiting; exact I).
  assert (K : bp_count p = length (accepted tr)). { destruct I as (_ & T & _). rewrite <- (seq_length (bp_count p) 0), <- T. apply map_length. }
  cbv zeta. cbn [block_step]. unfold push_back_unique, IsProcessingBlock.
  assert (X : existsb (fun y => same_block y (mkBE (bp_count p) peer b)) (bp_queue p) = true <-> exists e, waiting tr e /\ b_hash (be_block e) = b_hash b).
  { rewrite existsb_exists. unfold same_block. cbn [be_block]. split; intros (e & A & B); exists e; [apply W in A; apply N.eqb_eq in B | apply W in A; apply N.eqb_eq in B]; auto. }
  split; [|split].
  - intros H. apply X in H. rewrite H. reflexivity.
  - intros H. destruct (existsb _ (bp_queue p)) eqn:E; [exfalso; apply H, X; reflexivity|]. cbn. rewrite K. reflexivity.
  - exact X.
Qed.
(** The peers that are banned are those whose block the block chain refused, once for each such block. *)
Theorem C63_block_bans {C} (AddBlock : C -> Block -> C * Outcome) c h :
  let tr := snd (block_run AddBlock (empty_pipe c) h) in
  bans tr = offenders tr /\
  forall e o, In (Called e o) tr -> exists c', snd (AddBlock c' (be_block e)) = o.
Proof.
  cbv zeta. pose proof (binv_run AddBlock h _ _ (binv_start c)) as I. cbn [app] in I. split; [apply I|]. intros e o. apply called_outcome.
Qed.
(** False: a block that is received is handed to the block chain, if it was not before. A block with the header of a good block and another
    body, sent first, makes the node drop the good block. *)
Definition judge (c : unit) (b : Block) : unit * Outcome := (c, if N.eqb (b_body b) 1 then Fine else Invalid).
Theorem C63_good_block_dropped_refuted : exists h good,
  let '(p, tr) := block_run judge (empty_pipe tt) h in
  snd (judge tt good) = Fine /\ In (Receive 2 good) h /\ bp_queue p = [] /\ bp_batch p = None /\
  forall later, Forall internal later -> ~ exists e, In e (called (tr ++ snd (block_run judge p later))) /\ be_block e = good.
Proof.
  exists [Receive 1 (mkBlock 7 0); Copy; Receive 2 (mkBlock 7 1); Run 0; Join], (mkBlock 7 1). cbn [block_run].
  split; [reflexivity|]. split; [cbn; auto|]. split; [reflexivity|]. split; [reflexivity|].
  intros later F. assert (E : snd (block_run judge (mkBP [] None tt 1) later) = []).
  { induction F as [|s later S _ IH]; [reflexivity|]. cbn [block_run]. destruct s; cbn in S; try tauto; cbn; destruct (block_run judge (mkBP [] None tt 1) later); cbn in *; exact IH. }
  match goal with |- context [block_run judge ?x later] => change x with (mkBP (C:=unit) [] None tt 1) end.
  rewrite E, app_nil_r. intros (e & I & B). cbn in I. destruct I as [<-|[]]. discriminate B.
Qed.

(** Transactions: handed over once each and in the order they were taken. *)
Theorem C63_txs_in_order {C} has_tip (pool_add : C -> Tx -> PoolType -> C * PoolStatus) c h :
  let tr := snd (tx_run has_tip pool_add (empty_tx_pipe c) h) in
  exists rest, tx_accepted tr = tx_called tr ++ rest.
Proof.
  cbv zeta. assert (I0 : tinv (empty_tx_pipe c) []) by (repeat split; reflexivity).
  pose proof (tinv_run has_tip pool_add h _ _ I0) as I. cbn [app] in I. destruct I as (A & _).
  destruct (tp_current _) as [[e [|]]|]; [destruct A as (q & _ & A) | destruct A as [_ A] |]; eauto.
Qed.
(** None is left: as many rounds of the thread as transactions wait hand over all of them. *)
Theorem C63_txs_all {C} has_tip (pool_add : C -> Tx -> PoolType -> C * PoolStatus) c h :
  let tr := snd (tx_run has_tip pool_add (empty_tx_pipe c) h) in
  exists n, tx_called (snd (tx_run has_tip pool_add (empty_tx_pipe c) (h ++ tx_rounds n))) = tx_accepted (snd (tx_run has_tip pool_add (empty_tx_pipe c) (h ++ tx_rounds n))) /\
    n <= S (length (tx_accepted tr)).
Proof.
  cbv zeta. assert (I0 : tinv (empty_tx_pipe c) []) by (repeat split; reflexivity).
  pose proof (tinv_run has_tip pool_add h _ _ I0) as I. cbn [app] in I. set (p := fst (tx_run has_tip pool_add (empty_tx_pipe c) h)) in *.
  set (tr := snd (tx_run has_tip pool_add (empty_tx_pipe c) h)) in *.
  assert (L : length (tp_queue p) <= S (length (tx_accepted tr))).
  { destruct I as (A & _). destruct (tp_current p) as [[e [|]]|]; [destruct A as (q & -> & ->) | destruct A as [_ ->] | rewrite A]; cbn [length]; rewrite app_length; lia. }
  exists (S (length (tx_accepted tr))). split; [|lia].
  destruct (tx_drain has_tip pool_add _ p tr I L ltac:(lia)) as [Q CU].
  pose proof (tinv_run has_tip pool_add (tx_rounds (S (length (tx_accepted tr)))) p tr I) as I2. destruct I2 as (A & _). rewrite CU, Q, app_nil_r in A.
  rewrite tx_run_app. cbn [snd]. fold p tr. symmetry. exact A.
Qed.
(** What is announced is exactly the kernels of fluffed transactions that were added, to all but the connection they came from. *)
Theorem C63_announced {C} has_tip (pool_add : C -> Tx -> PoolType -> C * PoolStatus) c h :
  let tr := snd (tx_run has_tip pool_add (empty_tx_pipe c) h) in broadcasts tr = to_announce tr.
Proof.
  cbv zeta. assert (I0 : tinv (empty_tx_pipe c) []) by (repeat split; reflexivity).
  pose proof (tinv_run has_tip pool_add h _ _ I0) as I. cbn [app] in I. apply I.
Qed.
(** So a transaction in its stem phase is not announced by this pipe. *)
Theorem C63_stem_not_announced {C} has_tip (pool_add : C -> Tx -> PoolType -> C * PoolStatus) c h k x :
  let tr := snd (tx_run has_tip pool_add (empty_tx_pipe c) h) in
  In (k, x) (broadcasts tr) -> exists e, In e (tx_called tr) /\ te_pool e = MEMPOOL /\ te_connection e = x /\ In k (t_kernels (te_tx e)) /\
    exists c', snd (pool_add c' (te_tx e) MEMPOOL) = ADDED.
Proof.
  cbv zeta. rewrite C63_announced. intros IN. unfold to_announce in IN. apply in_flat_map in IN. destruct IN as (ev & IE & IN).
  destruct ev as [|  |e st| | ]; try destruct IN. destruct e as [cn peer t [|]]; [|destruct st; destruct IN]. destruct st; try destruct IN.
  apply in_map_iff in IN. destruct IN as (k' & K & IK). injection K as <- <-. exists (mkTE cn peer t MEMPOOL). split.
  { apply in_flat_map. eexists. split; [exact IE|]. cbn. auto. }
  repeat split; auto. destruct (tx_called_outcome _ _ _ _ _ _ IE) as [c' E]. exists c'. cbn [te_tx te_pool] in E |- *. unfold AddTransaction in E.
  destruct (has_tip c'); [|discriminate]. destruct (pool_add c' t MEMPOOL) as [c2 []]; try discriminate. reflexivity.
Qed.
(** Peers are banned for each refused transaction; if the node has a chain and its pool does not fail, only those whose transaction is invalid. *)
Theorem C63_tx_bans_partial {C} has_tip (pool_add : C -> Tx -> PoolType -> C * PoolStatus) c h :
  let tr := snd (tx_run has_tip pool_add (empty_tx_pipe c) h) in
  tx_bans tr = tx_offenders tr /\
  ((forall c', has_tip c' = true) -> forall e, In e (tx_called tr) -> (forall c', snd (pool_add c' (te_tx e) (te_pool e)) = TX_INVALID) -> In (te_peer e) (tx_bans tr)) /\
  ((forall c', has_tip c' = true) -> (forall c' t pt, snd (pool_add c' t pt) <> PoolThrew) ->
   forall peer, In peer (tx_bans tr) -> exists e c', In e (tx_called tr) /\ te_peer e = peer /\ snd (pool_add c' (te_tx e) (te_pool e)) = TX_INVALID).
Proof.
  cbv zeta. assert (I0 : tinv (empty_tx_pipe c) []) by (repeat split; reflexivity).
  pose proof (tinv_run has_tip pool_add h _ _ I0) as I. cbn [app] in I. assert (B : tx_bans (snd (tx_run has_tip pool_add (empty_tx_pipe c) h)) = tx_offenders (snd (tx_run has_tip pool_add (empty_tx_pipe c) h))) by apply I.
  split; [exact B|]. split.
  { intros HT e IE X. rewrite B. unfold tx_called in IE. apply in_flat_map in IE. destruct IE as (ev & IE & IN). destruct ev as [| |e' st| |]; cbn in IN; try contradiction. destruct IN as [->|[]].
    destruct (tx_called_outcome _ _ _ _ _ _ IE) as [c' E]. unfold AddTransaction in E. rewrite HT in E. specialize (X c').
    destruct (pool_add c' (te_tx e) (te_pool e)) as [c2 w]. cbn [snd] in X. subst w. cbn [snd] in E. subst st. unfold tx_offenders. apply in_flat_map. eexists. split; [exact IE|]. left. reflexivity. }
  intros HT NT peer IN. rewrite B in IN. unfold tx_offenders in IN. apply in_flat_map in IN. destruct IN as (ev & IE & IN).
  destruct ev as [| |e st| |]; try destruct IN. destruct st; try destruct IN as [<-|[]]; try destruct IN.
  destruct (tx_called_outcome _ _ _ _ _ _ IE) as [c' E]. exists e, c'. split; [apply in_flat_map; eexists; split; [exact IE | cbn; auto]|]. split; [reflexivity|].
  unfold AddTransaction in E. rewrite HT in E. specialize (NT c' (te_tx e) (te_pool e)). destruct (pool_add c' (te_tx e) (te_pool e)) as [c2 []]; try discriminate; try reflexivity. exfalso. apply NT. reflexivity.
Qed.
(** False without that: a peer is banned for a failure of the node itself, here having no chain yet. *)
Theorem C63_tx_ban_refuted : exists (pool_add : unit -> Tx -> PoolType -> unit * PoolStatus) h,
  (forall c t pt, snd (pool_add c t pt) = ADDED) /\ tx_bans (snd (tx_run (fun _ => false) pool_add (empty_tx_pipe tt) h)) = [9%N].
Proof. exists (fun c _ _ => (c, ADDED)), [TxReceive 1 9 (mkTx 5 [3%N]) MEMPOOL; TxCopy; TxAdd; TxPop]. split; reflexivity. Qed.
(** False: a fluffed transaction that is received is offered to the pool of fluffed transactions. If the same transaction waits to be
    stemmed, it is dropped, and the node goes on to treat it as one to be stemmed. *)
Theorem C63_fluff_lost_refuted : exists (pool_add : unit -> Tx -> PoolType -> unit * PoolStatus) t h,
  (forall c t pt, snd (pool_add c t pt) = ADDED) /\ In (TxReceive 2 8 t MEMPOOL) h /\
  let '(p, tr) := tx_run (fun _ => true) pool_add (empty_tx_pipe tt) h in
  tp_queue p = [] /\ map te_pool (tx_called tr) = [STEMPOOL] /\ broadcasts tr = [].
Proof.
  exists (fun c _ _ => (c, ADDED)), (mkTx 5 [3%N]), [TxReceive 1 9 (mkTx 5 [3%N]) STEMPOOL; TxReceive 2 8 (mkTx 5 [3%N]) MEMPOOL; TxCopy; TxAdd; TxPop].
  split; [reflexivity|]. split; [cbn; auto|]. vm_compute. repeat split.
Qed.

(** A case: three blocks handled in the order third, first, second, the second bad; then a fluffed and a stemmed transaction. *)
Theorem C63_example :
  let tr := snd (block_run judge (empty_pipe tt) [Receive 1 (mkBlock 5 1); Receive 2 (mkBlock 6 0); Receive 3 (mkBlock 7 1); Copy; Run 2; Run 0; Receive 4 (mkBlock 5 1); Run 1; Join]) in
  map be_peer (called tr) = [3; 1; 2]%N /\ bans tr = [2%N] /\ In (Dropped 4 (mkBlock 5 1)) tr /\
  let tr := snd (tx_run (fun _ => true) (fun (c : unit) _ _ => (c, ADDED)) (empty_tx_pipe tt)
                   [TxReceive 1 9 (mkTx 5 [3; 4]%N) MEMPOOL; TxReceive 2 8 (mkTx 6 [7]%N) STEMPOOL; TxCopy; TxAdd; TxPop; TxCopy; TxAdd; TxPop]) in
  broadcasts tr = [(3, 1); (4, 1)]%N /\ map te_peer (tx_called tr) = [9; 8]%N.
Proof. vm_compute. repeat split. do 5 right. left. reflexivity. Qed.

Definition pipe_theorems := (@C63_blocks_once, @C63_blocks_all, @C63_dropped_exact, @C63_block_bans, C63_good_block_dropped_refuted, @C63_txs_in_order, @C63_txs_all,
  @C63_announced, @C63_stem_not_announced, @C63_tx_bans_partial, C63_tx_ban_refuted, C63_fluff_lost_refuted, C63_example).
Print Assumptions pipe_theorems.
