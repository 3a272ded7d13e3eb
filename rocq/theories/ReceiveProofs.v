(** A received slate is refused from then on, unless the transaction is cancelled. *)
From Verif Require Import Base Bytes ConsensusModel ValidationModel CodecModel KeyPathModel KeyPathProofs WalletModel WalletSpec CoinProofs TableProofs SendProofs LockProofs.
Local Open Scope N_scope.

Definition closed (ty : EWalletTxType) : Prop := ty <> RECEIVED_CANCELED /\ ty <> SENDING_STARTED.
Definition holds (id : bytes) (i : N) (l : list WalletTx) : Prop := exists t, tx_by_slate id l = Some t /\ w_id t = i /\ closed (w_type t).

Lemma holds_app id i l u : holds id i l -> holds id i (l ++ u).
Proof. intros (t & A & B). exists t. split; [apply by_slate_app; exact A|exact B]. Qed.
Lemma holds_step id i l l' : Forall2 tx_step l l' -> holds id i l -> holds id i l'.
Proof.
  intros F (t & A & B & C). destruct (step_by_slate _ _ _ _ F A) as (t' & A' & S0). exists t'. split; [exact A'|].
  destruct S0 as (E1 & _ & _ & _ & _ & E). split; [congruence|]. unfold closed in *. destruct E as [->|[[_ ->]|[_ ->]]]; [exact C|split; discriminate..].
Qed.
Lemma holds_save id i l t t0 : NoDup (ids l) -> In t0 l -> w_id t = w_id t0 -> w_slate t = w_slate t0 -> (w_id t = i -> closed (w_type t0) -> closed (w_type t)) ->
  holds id i l -> holds id i (save_tx l t).
Proof.
  intros ND It E S0 C (u & A & B & D). unfold holds. rewrite (save_tx_slate l t t0) by assumption. rewrite A. cbn [option_map]. eexists. split; [reflexivity|].
  destruct (N.eqb_spec (w_id u) (w_id t)) as [Q|Q]; [|auto]. split; [congruence|]. apply C; [congruence|].
  destruct (by_slate_in _ _ _ A) as (Iu & _). assert (u = t0) by (apply (nodup_id_eq l); auto; congruence). congruence.
Qed.
Section Steps.
Variable sort : list OutputDataEntity -> list OutputDataEntity.
Variable env : Environment.
Variable min_confs : N.
Variable commit_of : KeyChainPath -> N -> bytes.
Variable ndebug : bool.
Hypothesis Ci : forall p a p' a', commit_of p a = commit_of p' a' -> p = p'.

Lemma refresh_holds id i nv d : wf d -> node_wf nv d -> holds id i (d_txs d) -> holds id i (d_txs (snd (Refresh nv d))).
Proof.
  intros W NW H. destruct (Refresh nv d) as (outs & d') eqn:R. cbn [snd]. destruct (N.lt_ge_cases (n_height nv) (d_refresh d)) as [L|L].
  - rewrite refresh_behind in R by exact L. injection R as _ <-. exact H.
  - destruct (refresh_spec nv d outs d' W NW L R) as (_ & _ & F & _). eapply holds_step; [exact F|]. unfold all_txs. apply holds_app. exact H.
Qed.
Lemma step_holds id i d op : inv d -> op_ok commit_of d op -> op <> OpCancel i -> holds id i (d_txs d) ->
  holds id i (d_txs (wallet_step sort env min_confs commit_of ndebug d op)).
Proof.
  intros IV OK NC H. pose proof (i_wf _ IV) as W. destruct W as (W1 & W2 & W3). destruct op as [nv sid sc|s ok|s ok|j|nv]; cbn [wallet_step].
  - destruct OK as (RO & LT & LN & FS & FP). pose proof (proj1 RO) as NW.
    pose proof (refresh_holds id i nv d (i_wf _ IV) NW H) as HR.
    assert (AV : snd (GetAllAvailableCoins env min_confs nv d) = d \/ snd (GetAllAvailableCoins env min_confs nv d) = snd (Refresh nv d)).
    { unfold GetAllAvailableCoins. destruct (n_tip nv); auto. right. destruct (Refresh nv d). reflexivity. }
    destruct (Send sort env min_confs commit_of ndebug nv d sid sc) as (o & d2) eqn:E. cbn [snd]. destruct o as [slate| |].
    + apply send_inv in E. destruct E as (coins & d1 & inputs & a & fee & n & G & P & B).
      destruct (available_spec env min_confs nv d coins d1 (i_wf _ IV) NW G) as (ED & _). rewrite <- ED in *.
      destruct (i_acc _ IV) as (r & EA).
      assert (EAR : d_accounts (snd (Refresh nv d)) = at_index r) by (rewrite refresh_accounts; exact EA).
      destruct (build_spec _ Ci _ _ _ _ _ _ _ _ _ EAR B) as (_ & _ & _ & _ & _ & _ & B7 & _).
      rewrite B7. assert (WR : wf (snd (Refresh nv d))) by (destruct (Refresh nv d) as (ou & dd) eqn:R; exact (refresh_wf _ _ _ _ (i_wf _ IV) NW R)).
      destruct WR as (_ & _ & WR3). rewrite save_tx_new; [apply holds_app; exact HR|]. intros Q. apply WR3 in Q. cbn in Q. lia.
    + unfold Send in E. destruct (GetAllAvailableCoins env min_confs nv d) as (oc & d1). cbn [snd] in AV.
      assert (d2 = d1) as ->.
      { match type of E with (match ?x with _ => _ end) = _ => destruct x as [(s & d3)| |] end; [discriminate|congruence|discriminate]. }
      destruct AV as [->| ->]; auto.
    + unfold Send in E. destruct (GetAllAvailableCoins env min_confs nv d) as (oc & d1). cbn [snd] in AV.
      assert (d2 = d1) as ->.
      { match type of E with (match ?x with _ => _ end) = _ => destruct x as [(s & d3)| |] end; [discriminate|discriminate|congruence]. }
      destruct AV as [->| ->]; auto.
  - unfold Receive. destruct (negb _); [exact H|]. destruct (i_acc _ IV) as (r & EA). rewrite EA, next_child. cbn [GetNextTransactionId set_accounts d_nextTx].
    destruct ok; [|exact H]. cbn [snd]. set (t := mkWalletTx _ _ _ _ _ _ _ _).
    unfold SaveSlate, AddTransaction, AddOutputs, set_txs, set_outputs, set_nextTx, set_accounts. cbn -[save_output save_tx holds].
    rewrite save_tx_new; [apply holds_app; exact H|]. intros Q. apply W3 in Q. cbn in Q. lia.
  - unfold Finalize. destruct (LoadSlate _ _ _) as [ss|]; [|exact H]. destruct (tx_by_slate (s_id s) (d_txs d)) as [t|] eqn:T; [|exact H].
    destruct (LoadSlateContext (s_id s) d) as [x|]; [|exact H]. destruct ok; [|exact H]. cbn [snd].
    destruct (by_slate_in _ _ _ T) as (It & _).
    match goal with |- holds id i (d_txs (AddTransaction ?t' _)) => apply (holds_save id i (d_txs d) t' t W2 It eq_refl eq_refl); [|exact H] end.
    intros _ _. split; discriminate.
  - unfold CancelTx. destruct (find _ (d_txs d)) as [t|] eqn:F; [|exact H]. destruct (CancelWalletTx d t) as [d'| |] eqn:C; [|exact H|exact H]. cbn [snd].
    apply find_some in F. destruct F as (It & Ej). apply N.eqb_eq in Ej.
    destruct (cancel_spec d t d' W1 C) as (t' & inputs & EI & ES & EX & NL & TY & EO & AU & ED). rewrite ED.
    change (holds id i (save_tx (d_txs d) t')). apply (holds_save id i (d_txs d) t' t W2 It EI ES); [|exact H].
    intros Q _. exfalso. apply NC. congruence.
  - destruct OK as (NW & _). apply refresh_holds; [exact (i_wf _ IV)|exact NW|exact H].
Qed.
Hypothesis Ss : sorts sort.
Lemma run_holds id i ops : forall d, inv d -> history sort env min_confs commit_of ndebug d ops -> ~ In (OpCancel i) ops -> holds id i (d_txs d) ->
  holds id i (d_txs (wallet_run sort env min_confs commit_of ndebug ops d)).
Proof.
  induction ops as [|op ops IH]; intros d IV H NC Hd; [exact Hd|]. cbn [history] in H. destruct H as (A & B). cbn [wallet_run fold_left].
  apply IH; [apply step_inv; auto|exact B|intros Q; apply NC; right; exact Q|]. apply step_holds; auto. intros ->. apply NC. left. reflexivity.
Qed.
Lemma received_holds d s slate d' : inv d -> d_nextTx d + 1 < W32 -> (forall t, In t (d_txs d) -> w_slate t <> Some (s_id s)) ->
  Receive commit_of d s true = (Ret slate, d') -> holds (s_id s) (d_nextTx d) (d_txs d').
Proof.
  intros IV Lt NS. pose proof (i_wf _ IV) as (W1 & W2 & W3). unfold Receive. destruct (negb _); [discriminate|].
  destruct (i_acc _ IV) as (r & EA). rewrite EA, next_child. cbn [GetNextTransactionId set_accounts d_nextTx].
  set (t := mkWalletTx _ _ _ _ _ _ _ _). intros E. apply (f_equal snd) in E. cbn [snd] in E. rewrite <- E. 
  unfold SaveSlate, AddTransaction, AddOutputs, set_txs, set_outputs, set_nextTx, set_accounts. cbn -[save_output save_tx holds].
  rewrite save_tx_new by (intros Q; apply W3 in Q; cbn in Q; lia).
  exists t. split; [apply by_slate_new; [exact NS|reflexivity]|]. split; [reflexivity|]. split; discriminate.
Qed.
Lemma holds_refuses id i d s ok : holds id i (d_txs d) -> s_id s = id -> Receive commit_of d s ok = (Throw, d).
Proof.
  intros (t & A & _ & C1 & C2) <-. unfold Receive, VerifySlateStatus. rewrite A. destruct (w_type t); try reflexivity; [contradiction C1; reflexivity|contradiction C2; reflexivity].
Qed.
End Steps.
