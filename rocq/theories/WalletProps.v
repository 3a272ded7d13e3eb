(** C38, C50: locking, and fee estimates. *)
From Coq Require Import Permutation.
From Verif Require Import Base Bytes ConsensusModel ValidationModel CodecModel KeyPathModel KeyPathProofs WalletModel WalletSpec
  CoinProofs TableProofs SendProofs LockProofs ReceiveProofs CoinProps.
Local Open Scope N_scope.

(** *** C38 *)
(** After any sequence of sends, receives, finalizations, cancellations and refreshes of a new wallet: a locked
    coin is spent by exactly one live transaction, no coin is spent by two, and a coin offered for spending is
    spent by none. Assumed of each operation ([op_ok]): slate ids and commitments do not repeat, a cancelled
    transaction is not finalized, the receiver's part holds no input, and the chain gives back no coin that a
    live transaction has spent. *)
Theorem C38_one_live_partial sort env min_confs commit_of ndebug random ops :
  sorts sort -> (forall p a p' a', commit_of p a = commit_of p' a' -> p = p') ->
  history sort env min_confs commit_of ndebug (new_wallet random) ops ->
  let d := wallet_run sort env min_confs commit_of ndebug ops (new_wallet random) in
  (forall o, In o (d_outputs d) -> c_status o = LOCKED ->
     exists t, In t (d_txs d) /\ live t /\ spends t (c_commitment o) /\
       forall t', In t' (d_txs d) -> live t' -> spends t' (c_commitment o) -> t' = t) /\
  (forall t t' c, In t (d_txs d) -> In t' (d_txs d) -> live t -> live t' -> spends t c -> spends t' c -> t = t') /\
  (forall o t, In o (d_outputs d) -> c_status o = SPENDABLE -> In t (d_txs d) -> live t -> ~ spends t (c_commitment o)) /\
  (forall t c, In t (d_txs d) -> live t -> spends t c -> exists o, In o (d_outputs d) /\ c_commitment o = c) /\
  NoDup (map c_commitment (d_outputs d)) /\ NoDup (map w_id (d_txs d)).
Proof.
  intros Ss Ci H d. pose proof (run_inv sort env min_confs commit_of ndebug Ss Ci ops _ (inv_new random) H) as IV. fold d in IV.
  split; [|split; [|split; [|split; [|split]]]].
  - intros o Ho S0. destruct (i_locked _ IV o Ho S0) as (t & A & B & C). exists t. repeat split; auto.
    intros t' A' B' C'. exact (i_disj _ IV t' t _ A' A B' B C' C).
  - exact (i_disj _ IV).
  - intros o t Ho S0. apply (i_free _ IV); auto.
  - intros t c A B C. pose proof (i_known _ IV t c A B C) as K. apply in_map_iff in K. destruct K as (o & E & I). eauto.
  - apply (i_wf _ IV).
  - apply (i_wf _ IV).
Qed.

(** The coins offered to a send are in the refreshed wallet, confirmed, and mature at the tip. *)
Theorem C38_offered env min_confs nv d coins d1 : wf d -> node_wf nv d ->
  GetAllAvailableCoins env min_confs nv d = (Ret coins, d1) ->
  (forall o, In o (d_outputs d1) -> match c_height o with Some x => x | None => 0 end + min_confs < W64) ->
  forall o, In o coins -> In o (d_outputs d1) /\ c_status o = SPENDABLE /\
    exists tip, n_tip nv = Some tip /\ mature env min_confs tip o.
Proof.
  intros W NW G H o Ho. destruct (available_spec env min_confs nv d coins d1 W NW G) as (_ & _ & Q).
  destruct (Q o Ho) as (A & B). split; auto. split; auto.
  unfold GetAllAvailableCoins in G. destruct (n_tip nv) as [tip|]; [|discriminate]. exists tip. split; auto.
  destruct (Refresh nv d) as (outs & d'). injection G as <- <-. apply filter_In in Ho. destruct Ho as (_ & Ho).
  unfold is_available in Ho. apply andb_prop in Ho. destruct Ho as (_ & Ho).
  pose proof (immature_spec env min_confs tip o (H o A)) as IM.
  assert (D : mature env min_confs tip o \/ ~ mature env min_confs tip o) by (unfold mature; destruct (_ =? _); lia).
  destruct D as [D|D]; auto. apply IM in D. rewrite D in Ho. discriminate.
Qed.

(** Cancelling makes the transaction not live, frees every locked coin it spends, marks as cancelled only
    unconfirmed or spent coins it spends or created, and touches no other coin. *)
Theorem C38_cancel d id d' t : wf d -> In t (d_txs d) -> w_id t = id -> CancelTx d id = (Ret tt, d') ->
  (exists t', In t' (d_txs d') /\ w_id t' = id /\ ~ live t') /\
  (forall u, In u (d_txs d) -> w_id u <> id -> In u (d_txs d')) /\
  (forall o, In o (d_outputs d) -> live t -> spends t (c_commitment o) -> c_status o = LOCKED -> In (SetStatus SPENDABLE o) (d_outputs d')) /\
  (forall o', In o' (d_outputs d') -> exists o, In o (d_outputs d) /\
     (o' = o \/
      (o' = SetStatus SPENDABLE o /\ c_status o = LOCKED /\ spends t (c_commitment o)) \/
      (o' = SetStatus CANCELED o /\ (c_status o = NO_CONFIRMATIONS \/ c_status o = SPENT) /\
       (spends t (c_commitment o) \/ c_tx o = Some id)))) /\
  map c_commitment (d_outputs d') = map c_commitment (d_outputs d).
Proof.
  intros (W1 & W2 & W3) It Ei C. unfold CancelTx in C.
  assert (F : find (fun t => w_id t =? id) (d_txs d) = Some t).
  { destruct (find (fun t => w_id t =? id) (d_txs d)) as [u|] eqn:F.
    - apply find_some in F. destruct F as (A & B). apply N.eqb_eq in B. f_equal. apply (nodup_id_eq (d_txs d)); auto. congruence.
    - exfalso. pose proof (find_none _ _ F t It) as G. cbn beta in G. apply N.eqb_neq in G. contradiction. }
  rewrite F in C. destruct (CancelWalletTx d t) as [dd| |] eqn:CW; try discriminate. injection C as ->.
  destruct (cancel_spec d t d' W1 CW) as (t' & inputs & EI & ES & EX & NL & TY & EO & AU & ED).
  assert (TY' : w_type t' = SENT_CANCELED \/ inputs = []) by (destruct TY as [(_ & _ & H)|(_ & H & _)]; auto).
  assert (ET : d_txs d' = save_tx (d_txs d) t') by (rewrite ED; reflexivity).
  assert (SI : forall c, In c inputs -> spends t c).
  { intros c Hc. destruct TY as [(_ & _ & ->)|(_ & _ & B)]; [destruct Hc|]. apply B. exact Hc. }
  split; [|split; [|split; [|split]]].
  - exists t'. split; [rewrite ET; apply (save_tx_in _ t' t); auto|]. split; [congruence|exact NL].
  - intros u Iu Nu. rewrite ET. apply (save_tx_in _ t' t); auto. right. split; auto. intros ->. contradiction.
  - intros o Ho Lv Sp S0. rewrite EO. apply in_map_iff. exists o. split; auto. destruct (AU o Ho) as (u & Eu).
    destruct (cancelled_cases inputs t' o u Eu TY') as [(_ & B)|[(A & _)|(_ & B & _)]].
    + exfalso. apply (B S0). destruct TY as [(A & _)|(_ & _ & D)]; [|apply D; exact Sp].
      unfold live in Lv. rewrite A in Lv. intuition discriminate.
    + exact A.
    + rewrite S0 in B. intuition discriminate.
  - intros o'. rewrite EO. intros H. apply in_map_iff in H. destruct H as (o & <- & Ho). exists o. split; auto. destruct (AU o Ho) as (u & Eu).
    destruct (cancelled_cases inputs t' o u Eu TY') as [(A & _)|[(A & B & D)|(A & B & D)]]; [auto|auto 8|].
    right. right. split; auto. split; auto. destruct D as [D|D]; auto. right. congruence.
  - rewrite EO. change (coms (map (upd (cancelled inputs t')) (d_outputs d)) = coms (d_outputs d)). apply upd_coms, cancelled_keeps.
Qed.

(** *** histories *)
Definition chain (h : N) (l : list (bytes * N)) (restored : list OutputDataEntity) : NodeView :=
  mkNode h (Some h) (fun c => option_map snd (find (fun p => bytes_eqb (fst p) c) l)) restored.
Definition found_coin : OutputDataEntity := mkCoin [0; 0; 1] 0 [0; 0; 1; 7] 900000000 SPENDABLE (Some 5) None.
Definition send_some : SendCriteria := mkSend (Some 100000000) 500000 1 SMALLEST [].
Definition run (ops : list wallet_op) : WalletDB := wallet_run sort_coins MAINNET 10 demo_commit true ops (new_wallet 1000).
Definition chain1 := chain 100 [([0; 0; 1; 7], 5)] [found_coin].
(** the other side's answers: an output added to the slate *)
Definition reply (id : bytes) : Slate := mkSlate id STANDARD_RECEIVED 100000000 (mkFee 0 23000000) [([99; 99], true)].
Definition the_change : bytes := [0; 0; 1000; 777000000].

Definition ops_example := [OpRefresh chain1; OpSend chain1 [11] send_some; OpReceive (mkSlate [22] STANDARD_SENT 5 (mkFee 0 1) []) true;
  OpFinalize (reply [11]) true; OpRefresh (chain 101 [(the_change, 101)] []); OpSend (chain 120 [(the_change, 101)] []) [12] send_some; OpCancel 3].
Ltac step_states := repeat (match goal with |- context [wallet_step sort_coins MAINNET 10 demo_commit true ?d ?o] =>
    let x := eval vm_compute in (wallet_step sort_coins MAINNET 10 demo_commit true d o) in
    change (wallet_step sort_coins MAINNET 10 demo_commit true d o) with x end).
Ltac fresh_by_computing := let E := fresh in let Q := fresh in
  intros ? ? ? ? E Q; vm_compute in E; injection E as <- <-; vm_compute in Q; destruct Q as [<-|[]]; cbn; intuition discriminate.
Ltac finalize_by_computing := let E := fresh in let Q := fresh in
  intros ? E; vm_compute in E; injection E as <-; split; [discriminate|]; intros ? ? Q; cbn in Q; destruct Q as [Q|[]]; injection Q as <- <-;
  split; [reflexivity|]; intros (? & E & Q); cbn in E; injection E as <-; cbn in Q; intuition discriminate.
Ltac check_history := cbn [history]; step_states; cbn [op_ok]; unfold refresh_ok, node_wf;
  repeat match goal with |- _ /\ _ => split end;
  try (vm_compute; reflexivity); try exact I;
  try fresh_by_computing; try finalize_by_computing;
  try (repeat constructor; cbn; intuition discriminate);
  try (vm_compute; intros; intuition (subst; cbn in *; try discriminate; try congruence); fail).
Example C38_example :
  history sort_coins MAINNET 10 demo_commit true (new_wallet 1000) ops_example /\
  map (fun o => (c_amount o, c_status o)) (d_outputs (run ops_example)) =
    [(900000000, SPENT); (777000000, SPENDABLE); (5, NO_CONFIRMATIONS); (654000000, CANCELED)] /\
  map w_type (d_txs (run ops_example)) = [RECEIVED; SENT; RECEIVING_IN_PROGRESS; SENT_CANCELED] /\
  map (fun o => (c_amount o, c_status o)) (d_outputs (run (firstn 6 ops_example))) =
    [(900000000, SPENT); (777000000, LOCKED); (5, NO_CONFIRMATIONS); (654000000, NO_CONFIRMATIONS)].
Proof.
  split; [|split; [|split]; vm_compute; reflexivity].
  unfold ops_example. check_history.
Qed.

Definition both_spend (d : WalletDB) (c : bytes) : Prop :=
  exists t t', In t (d_txs d) /\ In t' (d_txs d) /\ w_id t <> w_id t' /\ live t /\ live t' /\ spends t c /\ spends t' c.
(** A cancelled transaction can still be finalized: its coin, freed by the cancellation and locked again by
    another send, is then spent by two live transactions. *)
Definition ops_finalize_cancelled := [OpRefresh chain1; OpSend chain1 [11] send_some; OpCancel 1; OpSend chain1 [12] send_some].
Theorem C38_finalize_cancelled_refuted :
  history sort_coins MAINNET 10 demo_commit true (new_wallet 1000) ops_finalize_cancelled /\
  both_spend (run (ops_finalize_cancelled ++ [OpFinalize (reply [11]) true])) [0; 0; 1; 7].
Proof.
  split; [unfold ops_finalize_cancelled; check_history|].
  set (d := run _). vm_compute in d. unfold both_spend. subst d. cbn [d_txs].
  eexists _, _. split; [right; left; reflexivity|]. split; [right; right; left; reflexivity|].
  split; [discriminate|]. split; [right; left; reflexivity|]. split; [left; reflexivity|].
  split; eexists; split; [reflexivity|left; reflexivity|reflexivity|left; reflexivity].
Qed.
(** A reorganisation that removes a confirmed send gives its coin back as spendable while the transaction
    stays recorded as sent; the next send spends it again. *)
Definition ops_reorg := [OpRefresh chain1; OpSend chain1 [11] send_some; OpFinalize (reply [11]) true; OpRefresh (chain 101 [(the_change, 101)] [])].
Theorem C38_reorg_refuted :
  history sort_coins MAINNET 10 demo_commit true (new_wallet 1000) ops_reorg /\
  both_spend (run (ops_reorg ++ [OpSend (chain 101 [([0; 0; 1; 7], 5)] []) [12] send_some])) [0; 0; 1; 7].
Proof.
  split; [unfold ops_reorg; check_history|].
  set (d := run _). vm_compute in d. unfold both_spend. subst d. cbn [d_txs].
  eexists _, _. split; [right; left; reflexivity|]. split; [right; right; left; reflexivity|].
  split; [discriminate|]. split; [right; right; reflexivity|]. split; [left; reflexivity|].
  split; eexists; split; [reflexivity|left; reflexivity|reflexivity|left; reflexivity].
Qed.

(** A slate the wallet has received is refused from then on and changes nothing, whatever else is done, as long as the
    transaction it made is not cancelled. Missing: slates the wallet itself sent, and cancelled transactions (below). *)
Theorem C38_received_once_partial sort env min_confs commit_of ndebug random before s slate after s' ok :
  sorts sort -> (forall p a p' a', commit_of p a = commit_of p' a' -> p = p') ->
  let d := wallet_run sort env min_confs commit_of ndebug before (new_wallet random) in
  history sort env min_confs commit_of ndebug (new_wallet random) (before ++ [OpReceive s true] ++ after) ->
  (forall t, In t (d_txs d) -> w_slate t <> Some (s_id s)) ->
  fst (Receive commit_of d s true) = Ret slate -> ~ In (OpCancel (d_nextTx d)) after -> s_id s' = s_id s ->
  let d2 := wallet_run sort env min_confs commit_of ndebug (before ++ [OpReceive s true] ++ after) (new_wallet random) in
  Receive commit_of d2 s' ok = (Throw, d2).
Proof.
  intros Ss Ci d H NS R NC Es d2.
  assert (G : forall a b d0, history sort env min_confs commit_of ndebug d0 (a ++ b) -> history sort env min_confs commit_of ndebug d0 a /\
     history sort env min_confs commit_of ndebug (wallet_run sort env min_confs commit_of ndebug a d0) b).
  { clear. induction a as [|op a IH]; intros b d0 H; [split; [exact Logic.I|exact H]|]. cbn [app history] in H. destruct H as (A & B). destruct (IH b _ B) as (C & D).
    split; [cbn [history]; auto|exact D]. }
  destruct (G _ _ _ H) as (H1 & H2). fold d in H2. cbn [app history] in H2. destruct H2 as (Hop & H3).
  pose proof (run_inv sort env min_confs commit_of ndebug Ss Ci before _ (inv_new random) H1) as IV. fold d in IV.
  destruct (Receive commit_of d s true) as (o & d1) eqn:RE. cbn [fst] in R. subst o.
  assert (E2 : d2 = wallet_run sort env min_confs commit_of ndebug after d1).
  { unfold d2, wallet_run. rewrite !fold_left_app. cbn [fold_left wallet_step]. unfold d, wallet_run in RE. rewrite RE. reflexivity. }
  cbn [wallet_step] in H3. rewrite RE in H3. cbn [snd] in H3.
  apply (holds_refuses commit_of (s_id s) (d_nextTx d)); [|exact Es]. rewrite E2.
  apply (run_holds sort env min_confs commit_of ndebug Ci Ss); [|exact H3|exact NC|].
  - pose proof (step_inv sort env min_confs commit_of ndebug Ss Ci d (OpReceive s true) IV Hop) as Q. cbn [wallet_step] in Q. rewrite RE in Q. exact Q.
  - eapply received_holds; eauto. apply Hop.
Qed.
(** Once cancelled, the same slate is received again and again: every time an output of its amount is added and counted
    as unconfirmed. The same happens with a slate the wallet sent to itself. *)
Definition invoice : Slate := mkSlate [22] STANDARD_SENT 5 (mkFee 0 1) [].
Definition ops_received_twice := [OpReceive invoice true; OpCancel 0; OpReceive invoice true; OpReceive invoice true].
Theorem C38_received_twice_refuted :
  history sort_coins MAINNET 10 demo_commit true (new_wallet 1000) ops_received_twice /\
  map w_slate (filter (fun t => match w_type t with RECEIVING_IN_PROGRESS => true | _ => false end) (d_txs (run ops_received_twice))) = [Some [22]; Some [22]] /\
  map (fun o => (c_amount o, c_status o)) (d_outputs (run ops_received_twice)) = [(5, CANCELED); (5, NO_CONFIRMATIONS); (5, NO_CONFIRMATIONS)].
Proof. split; [unfold ops_received_twice; check_history|]. split; vm_compute; reflexivity. Qed.
Theorem C38_received_self_refuted : let s := mkSlate [11] STANDARD_SENT 100000000 (mkFee 0 23000000) [] in
  let ops := [OpRefresh chain1; OpSend chain1 [11] send_some; OpReceive s true; OpReceive s true] in
  history sort_coins MAINNET 10 demo_commit true (new_wallet 1000) ops /\
  map (fun t => (w_type t, w_slate t)) (d_txs (run ops)) = [(RECEIVED, None); (SENDING_STARTED, Some [11]); (RECEIVING_IN_PROGRESS, Some [11]); (RECEIVING_IN_PROGRESS, Some [11])].
Proof. cbv zeta. split; [check_history|]. vm_compute; reflexivity. Qed.
Example C38_received_once_example : let before := [OpRefresh chain1; OpSend chain1 [11] send_some] in
  let after := [OpFinalize (reply [11]) true; OpRefresh (chain 101 [(the_change, 101)] [])] in
  history sort_coins MAINNET 10 demo_commit true (new_wallet 1000) (before ++ [OpReceive invoice true] ++ after) /\
  (forall t, In t (d_txs (run before)) -> w_slate t <> Some (s_id invoice)) /\
  (exists slate, fst (Receive demo_commit (run before) invoice true) = Ret slate) /\ d_nextTx (run before) = 2.
Proof.
  cbv zeta. split; [cbn [app]; check_history|]. split; [vm_compute; intros t [<-|[<-|[]]]; discriminate|]. split; [eexists; vm_compute; reflexivity|]. vm_compute. reflexivity.
Qed.

(** *** C50 *)
(** When every confirmed coin is mature and the refresh changes nothing, a send of a given amount spends the
    coins of the estimate and, with change, charges its fee; without change it charges at least that. *)
Theorem C50_estimate_partial sort env min_confs commit_of ndebug nv d id sc amount fee inputs slate d2 x :
  sorts sort -> sc_amount sc = Some x ->
  GetAllAvailableCoins env min_confs nv d = (Ret (filter (fun o => status_eqb (c_status o) SPENDABLE) (d_outputs d)), d) ->
  affordable sc (filter (fun o => status_eqb (c_status o) SPENDABLE) (d_outputs d)) ->
  EstimateFee sort d sc = Ret (amount, fee, inputs) ->
  Send sort env min_confs commit_of ndebug nv d id sc = (Ret slate, d2) ->
  amount = x /\ s_amount slate = x /\ fee = fee_of (sc_feeBase sc) (length inputs) (1 + sc_numOutputs sc) 1 /\
  fee <= m_fee (s_fee slate) /\ (sc_numOutputs sc <> 0 -> m_fee (s_fee slate) = fee) /\
  (sc_numOutputs sc = 0 -> m_fee (s_fee slate) + x = total inputs) /\
  exists t change, In t (d_txs d2) /\ w_slate t = Some (s_id slate) /\ w_tx t = Some (map c_commitment inputs, change).
Proof.
  intros Ss EX G AF ES H. apply send_inv in H. destruct H as (coins & d1 & inputs' & a & fee' & n & G' & P & B).
  rewrite G in G'. injection G' as <- <-. set (coins := filter _ (d_outputs d)) in *.
  destruct (plan_spec sort 0 demo_commit ndebug Ss (fun p a p' a' E => proj1 (app_inj_tail p p' a a' E)) coins sc inputs' a fee' n P AF) as (CH & EN & RQ & TI & LE & ZE & FE & FG).
  unfold EstimateFee in ES. fold coins in ES. rewrite EX in ES. unfold plan_send in P. rewrite EX in P. cbn [obind] in P.
  unfold affordable in AF. rewrite EX in AF. destruct AF as (NA & L5 & NO).
  rewrite (N.add_comm (sc_numOutputs sc) 1) in ES. assert (M : (1 + sc_numOutputs sc) mod W8 = 1 + sc_numOutputs sc) by (apply N.mod_small; lia).
  rewrite M in *.
  destruct (SelectCoinsToSpend sort coins x (sc_feeBase sc) (sc_strategy sc) (sc_inputs sc) (1 + sc_numOutputs sc) 1) as [sel| |] eqn:SEL; cbn [obind] in *; try discriminate.
  injection ES as <- <- <-.
  assert (SELI : inputs' = sel) by (destruct (_ =? 0); [destruct (_ && _); [discriminate|]|]; congruence). subst inputs'.
  unfold requested, changes_wanted in *. rewrite EX in *. subst a n.
  destruct (chosen_length coins sel CH) as (LL & LT). destruct NO as (N1 & N2 & N3).
  pose proof (fee_mono (sc_feeBase sc) _ _ (1 + sc_numOutputs sc) 1 LL) as FM.
  assert (FX : CalculateFee (sc_feeBase sc) (FileModel.nlen sel) (1 + sc_numOutputs sc) 1 = fee_of (sc_feeBase sc) (length sel) (1 + sc_numOutputs sc) 1).
  { unfold FileModel.nlen. apply fee_exact; lia. }
  rewrite FX.
  unfold Build in B. cbn [GetNextTransactionId] in B.
  match type of B with (let* r := ?e in _) = _ => destruct e as [(ch & dd)| |]; cbn [obind] in B; try discriminate end.
  unfold Send_UpdateDatabase in B. match type of B with (let* r := (let* r1 := ?e in _) in _) = _ => destruct e as [d3| |]; cbn [obind] in B; try discriminate end.
  apply (f_equal (fun o => match o with Ret p => p | _ => (slate, d2) end)) in B. apply pair_equal_spec in B. destruct B as (<- & <-).
  cbn [s_amount s_fee m_fee s_id]. repeat split; auto.
  - intros Z. specialize (ZE Z). lia.
  - match goal with |- context [AddTransaction ?t _] => exists t, (map c_commitment ch) end. split; [|split; reflexivity].
    cbn [AddTransaction set_txs d_txs]. unfold save_tx. destruct (existsb _ _) eqn:X.
    + apply existsb_exists in X. destruct X as (u & Iu & Eu). apply in_map_iff. exists u. rewrite Eu. auto.
    + apply in_or_app. right. left. reflexivity.
Qed.
(** For the entire balance the estimate counts the change outputs that the send then leaves out. *)
Theorem C50_entire_refuted : exists sc amount fee inputs slate d2, sc_amount sc = None /\
  EstimateFee sort_coins (demo_wallet some_coins) sc = Ret (amount, fee, inputs) /\
  demo_send sc some_coins = (Ret slate, d2) /\ m_fee (s_fee slate) < fee /\ amount < s_amount slate.
Proof.
  exists (mkSend None 500000 1 SMALLEST []), 185500000, 24500000, some_coins.
  exists (mkSlate [1] STANDARD_SENT 196000000 (mkFee 0 14000000) (map (fun c => (c_commitment c, false)) some_coins)).
  exists (snd (demo_send (mkSend None 500000 1 SMALLEST []) some_coins)).
  split; [reflexivity|]. split; [vm_compute; reflexivity|]. split; [vm_compute; reflexivity|]. split; reflexivity.
Qed.
(** The estimate selects coins that are not mature yet; the send fails for lack of funds. *)
Theorem C50_immature_refuted : exists l sc r, EstimateFee sort_coins (demo_wallet l) sc = Ret r /\ fst (demo_send sc l) = Throw.
Proof.
  exists [mkCoin [0; 0; 1] 1 [0; 0; 1] 900000000 SPENDABLE (Some 50) None], send_some.
  exists (100000000, 23000000, [mkCoin [0; 0; 1] 1 [0; 0; 1] 900000000 SPENDABLE (Some 50) None]).
  split; vm_compute; reflexivity.
Qed.
Example C50_example : GetAllAvailableCoins MAINNET 10 (demo_node 100 some_coins) (mkDB some_coins [] 1 100 (CreateAccounts 1000) [] []) =
    (Ret (filter (fun o => status_eqb (c_status o) SPENDABLE) some_coins), mkDB some_coins [] 1 100 (CreateAccounts 1000) [] []) /\
  affordable (mkSend (Some 60000000) 500000 1 FEWEST_INPUTS []) some_coins /\
  EstimateFee sort_coins (demo_wallet some_coins) (mkSend (Some 60000000) 500000 1 FEWEST_INPUTS []) = Ret (60000000, 23000000, [coin_of 3 90000000]).
Proof.
  split; [vm_compute; reflexivity|]. split; [|vm_compute; reflexivity].
  split; [discriminate|]; split; [reflexivity|]; unfold no_overflow; vm_compute; auto.
Qed.

Definition wallet_theorems := (@C38_one_live_partial, @C38_offered, @C38_cancel, @C38_finalize_cancelled_refuted, @C38_reorg_refuted, @C38_received_once_partial, @C38_received_twice_refuted, @C38_received_self_refuted, @C38_received_once_example,
  @C50_estimate_partial, @C50_entire_refuted, @C50_immature_refuted).
Print Assumptions wallet_theorems.
