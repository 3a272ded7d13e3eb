(** A coin is spent by at most one live transaction. *)
From Coq Require Import Permutation.
From Verif Require Import Base Bytes FileModel ConsensusModel KeyPathModel KeyPathProofs WalletModel WalletSpec CoinProofs TableProofs SendProofs.
Local Open Scope N_scope.

Definition sending (t : WalletTx) : Prop := live t \/ w_type t = SENT_CANCELED.
Definition inputs_are (t : WalletTx) (l : list bytes) : Prop := forall c, spends t c <-> In c l.
Record inv (d : WalletDB) : Prop := {
  i_wf : wf d;
  i_acc : exists r, d_accounts d = at_index r;
  i_locked : forall o, In o (d_outputs d) -> c_status o = LOCKED -> exists t, In t (d_txs d) /\ live t /\ spends t (c_commitment o);
  i_disj : forall t t' c, In t (d_txs d) -> In t' (d_txs d) -> live t -> live t' -> spends t c -> spends t' c -> t = t';
  i_free : forall o t, In o (d_outputs d) -> c_status o = SPENDABLE \/ c_status o = NO_CONFIRMATIONS \/ c_status o = IMMATURE ->
           In t (d_txs d) -> live t -> ~ spends t (c_commitment o);
  i_known : forall t c, In t (d_txs d) -> live t -> spends t c -> In c (coms (d_outputs d));
  i_ctx : forall id x, In (id, x) (d_contexts d) -> exists t, tx_by_slate id (d_txs d) = Some t /\ sending t /\
          inputs_are t (coms (x_inputs x)) /\ (forall c, In c (coms (x_outputs x)) -> ~ In c (coms (x_inputs x)))
}.

Lemma inv_new r : inv (new_wallet r).
Proof.
  constructor; cbn; try contradiction.
  - repeat split; cbn; try constructor. contradiction.
  - exists r. reflexivity.
Qed.

(** *** generic *)
Lemma nodup_com_eq l o o' : NoDup (coms l) -> In o l -> In o' l -> c_commitment o = c_commitment o' -> o = o'.
Proof.
  induction l as [|x l IH]; cbn [coms map]; intros N A B E; [destruct A|]. inversion N; subst.
  destruct A as [->|A], B as [->|B]; auto.
  - exfalso. apply H1. rewrite E. apply in_map. exact B.
  - exfalso. apply H1. rewrite <- E. apply in_map. exact A.
Qed.
Lemma nodup_id_eq l t t' : NoDup (ids l) -> In t l -> In t' l -> w_id t = w_id t' -> t = t'.
Proof.
  induction l as [|x l IH]; cbn [ids map]; intros N A B E; [destruct A|]. inversion N; subst.
  destruct A as [->|A], B as [->|B]; auto.
  - exfalso. apply H1. rewrite E. apply in_map. exact B.
  - exfalso. apply H1. rewrite <- E. apply in_map. exact A.
Qed.
Lemma by_slate_in id l t : tx_by_slate id l = Some t -> In t l /\ w_slate t = Some id.
Proof.
  unfold tx_by_slate. intros H. apply find_some in H. destruct H as (A & B). split; auto.
  destruct (w_slate t); [|discriminate]. apply bytes_eqb_spec in B. congruence.
Qed.
Lemma by_slate_app id l u t : tx_by_slate id l = Some t -> tx_by_slate id (l ++ u) = Some t.
Proof. unfold tx_by_slate. induction l as [|x l IH]; cbn; [discriminate|]. destruct (match w_slate x with Some _ => _ | None => _ end); auto. Qed.
Lemma by_slate_new id l t : (forall u, In u l -> w_slate u <> Some id) -> w_slate t = Some id -> tx_by_slate id (l ++ [t]) = Some t.
Proof.
  unfold tx_by_slate. induction l as [|x l IH]; cbn; intros H E.
  - rewrite E, bytes_eqb_refl. reflexivity.
  - destruct (w_slate x) as [s|] eqn:S1; [|apply IH; auto].
    destruct (bytes_eqb s id) eqn:Q; [|apply IH; auto]. apply bytes_eqb_spec in Q. subst. exfalso. apply (H x (or_introl eq_refl) S1).
Qed.
(** replacing a transaction in place *)
Lemma save_tx_map l t t0 : NoDup (ids l) -> In t0 l -> w_id t = w_id t0 ->
  save_tx l t = map (fun u => if w_id u =? w_id t then t else u) l.
Proof.
  intros N I E. unfold save_tx. assert (X : existsb (fun u => w_id u =? w_id t) l = true).
  { apply existsb_id. rewrite E. apply in_map. exact I. }
  rewrite X. reflexivity.
Qed.
Lemma save_tx_in l t t0 u : NoDup (ids l) -> In t0 l -> w_id t = w_id t0 -> (In u (save_tx l t) <-> u = t \/ (In u l /\ u <> t0)).
Proof.
  intros N I E. rewrite (save_tx_map l t t0) by assumption. rewrite in_map_iff. split.
  - intros (v & A & B). destruct (N.eqb_spec (w_id v) (w_id t)) as [Q|Q]; [auto|]. subst v. right. split; auto. intros ->. congruence.
  - intros [->|(A & B)].
    + exists t0. rewrite E, N.eqb_refl. auto.
    + exists u. destruct (N.eqb_spec (w_id u) (w_id t)) as [Q|Q]; [|auto]. exfalso. apply B. apply (nodup_id_eq l); auto. congruence.
Qed.
Lemma save_tx_ids l t t0 : NoDup (ids l) -> In t0 l -> w_id t = w_id t0 -> ids (save_tx l t) = ids l.
Proof.
  intros N I E. rewrite (save_tx_map l t t0) by assumption. unfold ids. rewrite map_map. apply map_ext.
  intros u. destruct (N.eqb_spec (w_id u) (w_id t)); congruence.
Qed.
Lemma save_tx_slate l t t0 id : NoDup (ids l) -> In t0 l -> w_id t = w_id t0 -> w_slate t = w_slate t0 ->
  tx_by_slate id (save_tx l t) = option_map (fun u => if w_id u =? w_id t then t else u) (tx_by_slate id l).
Proof.
  intros N I E S0. rewrite (save_tx_map l t t0) by assumption.
  assert (G : forall u, In u l -> w_slate (if w_id u =? w_id t then t else u) = w_slate u).
  { intros u Iu. destruct (N.eqb_spec (w_id u) (w_id t)); auto. rewrite S0. f_equal. apply (nodup_id_eq l); auto. congruence. }
  clear N I. unfold tx_by_slate. induction l as [|x l IH]; cbn [map find option_map]; [reflexivity|].
  rewrite (G x (or_introl eq_refl)). destruct (match w_slate x with Some _ => _ | None => _ end); [reflexivity|].
  apply IH. intros u Iu. apply G. right. exact Iu.
Qed.

(** *** refresh *)
Lemma step_live t t' : tx_step t t' -> (live t' <-> live t).
Proof. intros (_ & _ & _ & _ & _ & [E|[(E & F)|(E & F)]]); unfold live; rewrite ?E, ?F; intuition discriminate. Qed.
Lemma step_sending t t' : tx_step t t' -> sending t -> sending t'.
Proof.
  intros St. unfold sending. rewrite (step_live _ _ St). destruct St as (_ & _ & _ & _ & _ & [E|[(E & F)|(E & F)]]); rewrite ?E, ?F; intuition discriminate.
Qed.
Lemma step_spends t t' c : tx_step t t' -> (spends t' c <-> spends t c).
Proof. intros (_ & _ & E & _). unfold spends. rewrite E. reflexivity. Qed.
Lemma forall2_in_r (l l' : list WalletTx) t' : Forall2 tx_step l l' -> In t' l' -> exists t, In t l /\ tx_step t t'.
Proof. induction 1; intros I; [destruct I|]. destruct I as [->|I]; [exists x; split; auto; left; auto|]. destruct (IHForall2 I) as (u & A & B). exists u. split; auto. right. exact A. Qed.
Lemma forall2_in_l (l l' : list WalletTx) t : Forall2 tx_step l l' -> In t l -> exists t', In t' l' /\ tx_step t t'.
Proof. induction 1; intros I; [destruct I|]. destruct I as [->|I]; [exists y; split; auto; left; auto|]. destruct (IHForall2 I) as (u & A & B). exists u. split; auto. right. exact A. Qed.
Lemma step_by_slate l l' id t : Forall2 tx_step l l' -> tx_by_slate id l = Some t -> exists t', tx_by_slate id l' = Some t' /\ tx_step t t'.
Proof.
  unfold tx_by_slate. induction 1; cbn; [discriminate|].
  assert (E : w_slate y = w_slate x) by apply H. rewrite E. destruct (match w_slate x with Some _ => _ | None => _ end); auto.
  intros [= <-]. eauto.
Qed.

Lemma found_not_live nv d t : In t (map found_tx (found_rows nv d)) -> ~ live t.
Proof. intros H. apply in_map_iff in H. destruct H as (p & <- & _). unfold live. cbn. intuition discriminate. Qed.
Lemma refreshed_cases nv o :
  (c_status (refreshed nv o) = LOCKED -> c_status o = LOCKED) /\
  (c_status (refreshed nv o) = SPENDABLE \/ c_status (refreshed nv o) = NO_CONFIRMATIONS \/ c_status (refreshed nv o) = IMMATURE ->
   (c_status o = SPENDABLE \/ c_status o = NO_CONFIRMATIONS \/ c_status o = IMMATURE) \/
   ((c_status o = SPENT \/ c_status o = CANCELED) /\ n_location nv (c_commitment o) <> None)).
Proof.
  unfold refreshed, upd, refresh_output. destruct (n_location nv (c_commitment o)) eqn:L; destruct (c_status o) eqn:S0;
    cbn [SetStatus SetBlockHeight c_status]; rewrite ?S0; split; intuition (congruence || discriminate).
Qed.
Lemma refresh_inv nv d outs d' : inv d -> refresh_ok nv d -> Refresh nv d = (outs, d') -> inv d'.
Proof.
  intros IV (NW & NL & NR) E. pose proof (i_wf _ IV) as W. pose proof (refresh_wf nv d outs d' W NW E) as W'.
  destruct (N.lt_ge_cases (n_height nv) (d_refresh d)) as [L|L].
  { rewrite refresh_behind in E by exact L. injection E as _ <-. exact IV. }
  destruct (refresh_spec nv d outs d' W NW L E) as (EO & DO & F & _ & _ & EA & EC & _).
  assert (BK : forall t', In t' (d_txs d') -> live t' -> exists t, In t (d_txs d) /\ live t /\ tx_step t t').
  { intros t' It Lt. destruct (forall2_in_r _ _ _ F It) as (t & Ia & St). unfold all_txs in Ia. rewrite (step_live _ _ St) in Lt.
    apply in_app_or in Ia. destruct Ia as [Ia|Ia]; [eauto|]. exfalso. exact (found_not_live _ _ _ Ia Lt). }
  assert (ROW : forall o', In o' (d_outputs d') -> exists o, o' = refreshed nv o /\
     (In o (d_outputs d) \/ (~ In (c_commitment o) (coms (d_outputs d)) /\ c_status o <> LOCKED))).
  { intros o'. rewrite DO, EO. intros H. apply in_map_iff in H. destruct H as (o & <- & H). exists o. split; auto.
    unfold all_rows in H. apply in_app_or in H. destruct H as [H|H]; auto. right.
    apply in_map_iff in H. destruct H as (p & <- & H). cbn [SetWalletTxId c_commitment c_status].
    unfold found_rows in H. apply (in_map snd) in H. rewrite number_snd in H. apply new_outputs_fresh in H. destruct H as (A & B & C).
    split; auto. rewrite Forall_forall in NL. apply NL. exact A. }
  assert (CM : forall o, c_commitment (refreshed nv o) = c_commitment o) by (intros o; apply upd_com, refresh_keeps).
  constructor.
  - exact W'.
  - destruct (i_acc _ IV) as (r & R). exists r. congruence.
  - intros o' I S0. destruct (ROW o' I) as (o & -> & Ho). apply (proj1 (refreshed_cases nv o)) in S0.
    destruct Ho as [Ho|(_ & Ho)]; [|contradiction]. destruct (i_locked _ IV o Ho S0) as (t & It & Lt & Sp).
    destruct (forall2_in_l _ _ t F) as (t' & It' & St); [unfold all_txs; apply in_or_app; auto|].
    exists t'. split; auto. rewrite (step_live _ _ St), (step_spends _ _ _ St), CM. auto.
  - intros t1 t2 c I1 I2 L1 L2 S1 S2. destruct (BK t1 I1 L1) as (u1 & A1 & B1 & C1). destruct (BK t2 I2 L2) as (u2 & A2 & B2 & C2).
    assert (u1 = u2).
    { apply (i_disj _ IV u1 u2 c); auto; [apply (step_spends _ _ _ C1)|apply (step_spends _ _ _ C2)]; assumption. }
    subst u2. apply (nodup_id_eq (d_txs d')); auto; [apply W'|]. destruct C1 as (-> & _). destruct C2 as (-> & _). reflexivity.
  - intros o' t' I S0 It Lt Sp. destruct (ROW o' I) as (o & -> & Ho). rewrite CM in Sp.
    destruct (BK t' It Lt) as (t & It0 & Lt0 & St). apply (step_spends _ _ _ St) in Sp.
    destruct Ho as [Ho|(Ho & _)].
    + apply (proj2 (refreshed_cases nv o)) in S0. destruct S0 as [S0|(S0 & S1)].
      * exact (i_free _ IV o t Ho S0 It0 Lt0 Sp).
      * exact (NR o t Ho S0 S1 It0 Lt0 Sp).
    + apply Ho. exact (i_known _ IV t _ It0 Lt0 Sp).
  - intros t' c It Lt Sp. destruct (BK t' It Lt) as (t & It0 & Lt0 & St). apply (step_spends _ _ _ St) in Sp.
    pose proof (i_known _ IV t c It0 Lt0 Sp) as K. rewrite DO, EO. unfold refreshed. rewrite upd_coms by apply refresh_keeps.
    unfold all_rows, coms. rewrite map_app. apply in_or_app. left. exact K.
  - intros id x. rewrite EC. intros H. destruct (i_ctx _ IV id x H) as (t & A & B & C & D).
    destruct (step_by_slate (all_txs nv d) (d_txs d') id t F) as (t' & A' & St); [unfold all_txs; apply by_slate_app; exact A|].
    exists t'. split; auto. split; [exact (step_sending _ _ St B)|]. split; auto.
    intros c. rewrite (step_spends _ _ _ St). apply C.
Qed.

(** *** send *)
Section Ops.
Variable sort : list OutputDataEntity -> list OutputDataEntity.
Variable env : Environment.
Variable min_confs : N.
Variable commit_of : KeyChainPath -> N -> bytes.
Variable ndebug : bool.
Hypothesis Ss : sorts sort.
Hypothesis Ci : forall p a p' a', commit_of p a = commit_of p' a' -> p = p'.

Lemma plan_chosen coins a0 fb n0 entire st chosen inputs a fee n :
  plan_send sort ndebug coins a0 fb n0 entire st chosen = Ret (inputs, a, fee, n) ->
  chosen_from inputs coins /\ n = (if entire then 0 else n0).
Proof.
  unfold plan_send. destruct entire; cbn [obind].
  - destruct (_ =? 0); [destruct (_ && _)|]; intros [= <- <- <- <-]; split; auto; exists []; rewrite app_nil_r; reflexivity.
  - destruct (SelectCoinsToSpend _ _ _ _ _ _ _ _) as [sel| |] eqn:Q; cbn [obind]; try discriminate.
    apply select_chosen in Q; [|exact Ss].
    destruct (_ =? 0); [destruct (_ && _); [discriminate|]|]; intros [= <- <- <- <-]; auto.
Qed.
Lemma available_spec nv d coins d1 : wf d -> node_wf nv d -> GetAllAvailableCoins env min_confs nv d = (Ret coins, d1) ->
  snd (Refresh nv d) = d1 /\ NoDup (coms coins) /\
  (forall o, In o coins -> In o (d_outputs d1) /\ c_status o = SPENDABLE).
Proof.
  intros W NW G. unfold GetAllAvailableCoins in G. destruct (n_tip nv) as [tip|]; [|discriminate].
  destruct (Refresh nv d) as (outs & d') eqn:R. injection G as <- <-. split; [reflexivity|].
  destruct (N.lt_ge_cases (n_height nv) (d_refresh d)) as [L|L].
  - rewrite refresh_behind in R by exact L. injection R as <- _. split; [constructor|contradiction].
  - pose proof (refresh_wf nv d outs d' W NW R) as (W' & _). destruct (refresh_spec nv d outs d' W NW L R) as (_ & E & _). rewrite E in W'.
    split; [apply nodup_filter_coms; exact W'|]. intros o. rewrite filter_In, E. intros (A & B). split; auto.
    unfold is_available in B. apply andb_prop in B. destruct B as (B & _). destruct (c_status o); (reflexivity || discriminate).
Qed.
(** all commitments after a refresh were known or restored *)
Lemma refresh_coms nv d c : wf d -> node_wf nv d -> In c (coms (d_outputs (snd (Refresh nv d)))) -> In c (coms (d_outputs d) ++ coms (n_restored nv)).
Proof.
  intros W NW. destruct (Refresh nv d) as (outs & d') eqn:R. cbn [snd].
  destruct (N.lt_ge_cases (n_height nv) (d_refresh d)) as [L|L].
  - rewrite refresh_behind in R by exact L. injection R as _ <-. intros H. apply in_or_app. auto.
  - destruct (refresh_spec nv d outs d' W NW L R) as (EO & DO & _). rewrite DO, EO. unfold refreshed. rewrite upd_coms by apply refresh_keeps.
    unfold all_rows. pose proof (coms_found nv d) as CF. unfold coms in *. rewrite map_app, !in_app_iff. rewrite CF. intros [H|H]; auto. right.
    apply in_map_iff in H. destruct H as (o & <- & H). apply new_outputs_fresh in H. apply in_map. apply H.
Qed.
Lemma refresh_slates nv d id : wf d -> node_wf nv d -> (forall t, In t (d_txs d) -> w_slate t <> Some id) ->
  forall t, In t (d_txs (snd (Refresh nv d))) -> w_slate t <> Some id.
Proof.
  intros W NW H t. destruct (Refresh nv d) as (outs & d') eqn:R. cbn [snd].
  destruct (N.lt_ge_cases (n_height nv) (d_refresh d)) as [L|L].
  - rewrite refresh_behind in R by exact L. injection R as _ <-. apply H.
  - destruct (refresh_spec nv d outs d' W NW L R) as (_ & _ & F & _). intros I.
    destruct (forall2_in_r _ _ _ F I) as (u & Iu & (_ & -> & _)). unfold all_txs in Iu. apply in_app_or in Iu. destruct Iu as [Iu|Iu]; [auto|].
    apply in_map_iff in Iu. destruct Iu as (p & <- & _). discriminate.
Qed.
Lemma refresh_next nv d : wf d -> node_wf nv d -> d_nextTx (snd (Refresh nv d)) <= d_nextTx d + N.of_nat (length (n_restored nv)).
Proof.
  intros W NW. destruct (Refresh nv d) as (outs & d') eqn:R. cbn [snd].
  destruct (N.lt_ge_cases (n_height nv) (d_refresh d)) as [L|L].
  - rewrite refresh_behind in R by exact L. injection R as _ <-. lia.
  - destruct (refresh_spec nv d outs d' W NW L R) as (_ & _ & _ & -> & _). pose proof (found_length nv d). lia.
Qed.

Lemma build_inv d r id a fee n inputs slate d2 : inv d -> d_accounts d = at_index r -> n <= W32 -> d_nextTx d + 1 < W32 ->
  (forall t, In t (d_txs d) -> w_slate t <> Some id) ->
  (forall p x, In p (new_paths r n) -> ~ In (commit_of p x) (coms (d_outputs d))) ->
  NoDup (coms inputs) -> (forall o, In o inputs -> In o (d_outputs d) /\ c_status o = SPENDABLE) ->
  Build commit_of d id a fee n inputs = Ret (slate, d2) -> inv d2.
Proof.
  intros IV EA Ln Lt FS FP NI SP B.
  destruct (build_spec _ Ci _ _ _ _ _ _ _ _ _ EA B) as (B1 & _ & _ & _ & _ & B6 & B7 & B8 & _ & B10 & B11 & _).
  set (change := if 0 <? n then change_coins commit_of r (sub64 (sum64 inputs) (add64 a fee)) (d_nextTx d) n else []) in *.
  set (tx := BuildWalletTx (d_nextTx d) inputs change slate) in *.
  pose proof (i_wf _ IV) as (W1 & W2 & W3).
  assert (CN : NoDup (coms change)).
  { unfold change. destruct (0 <? _); [|constructor]. apply change_coins_nodup; auto. }
  assert (CF : forall c, In c (coms change) -> ~ In c (coms (d_outputs d))).
  { intros c Hc. unfold change in Hc. destruct (0 <? _); [|destruct Hc]. apply change_coins_coms in Hc. destruct Hc as (p & x & Ip & ->). apply FP. exact Ip. }
  assert (CS : forall o, In o change -> c_status o = NO_CONFIRMATIONS).
  { intros o Ho. unfold change in Ho. destruct (0 <? _); [|destruct Ho]. apply change_coins_status in Ho. apply Ho. }
  assert (CI : forall c, In c (coms inputs) -> In c (coms (d_outputs d))).
  { intros c Hc. unfold coms in *. apply in_map_iff in Hc. destruct Hc as (o & <- & Io). apply in_map. apply SP. exact Io. }
  assert (LN : coms (map (SetStatus LOCKED) inputs) = coms inputs) by (unfold coms; rewrite map_map; reflexivity).
  assert (RD : forall o, In o (d_outputs d2) <-> (exists i, In i inputs /\ o = SetStatus LOCKED i) \/
                (In o change) \/ (In o (d_outputs d) /\ ~ In (c_commitment o) (coms inputs))).
  { intros o. rewrite B6. rewrite save_outputs_in by (rewrite LN; exact NI). rewrite save_outputs_in by exact CN. rewrite LN, in_map_iff. split.
    - intros [(i & <- & Hi)|([H|(H & H0)] & H1)]; eauto.
    - intros [(i & Hi & ->)|[H|(H & H0)]].
      + left. eauto.
      + right. split; auto. intros Q. apply (CF (c_commitment o)); [apply in_map; exact H|]. apply CI. exact Q.
      + right. split; auto. right. split; auto. intros Q. apply (CF _ Q). apply in_map. exact H. }
  assert (RT : d_txs d2 = d_txs d ++ [tx]).
  { rewrite B7. apply save_tx_new. intros Q. apply W3 in Q. cbn in Q. lia. }
  assert (TS : forall c, spends tx c <-> In c (coms inputs)).
  { intros c. unfold spends, tx, BuildWalletTx. cbn [w_tx]. split.
    - intros (x & [= <-] & H). exact H.
    - intros H. eexists. split; [reflexivity|exact H]. }
  assert (NS : forall t c, In t (d_txs d) -> live t -> In c (coms inputs) -> ~ spends t c).
  { intros t c It Lv Hc. unfold coms in Hc. apply in_map_iff in Hc. destruct Hc as (o & <- & Io). destruct (SP o Io) as (A & Bs).
    apply (i_free _ IV o t A); auto. }
  assert (LV : live tx) by (left; reflexivity).
  constructor.
  - split; [|split].
    + rewrite B6. apply save_outputs_coms, save_outputs_coms. exact W1.
    + rewrite RT. unfold ids. rewrite map_app. apply nodup_app; auto; [repeat constructor; auto|].
      intros i Hi [<-|[]]. apply W3 in Hi. cbn in Hi. lia.
    + intros i. rewrite RT, B8. unfold ids. rewrite map_app, in_app_iff. rewrite N.mod_small by lia. cbn. intros [H|[<-|[]]]; [apply W3 in H|]; lia.
  - exists (r + n). exact B10.
  - intros o Ho S0. apply RD in Ho. destruct Ho as [(i & Hi & ->)|[H|(H & H0)]].
    + exists tx. split; [rewrite RT; apply in_or_app; right; left; reflexivity|]. split; auto. apply TS. cbn [SetStatus c_commitment]. apply in_map. exact Hi.
    + rewrite (CS o H) in S0. discriminate.
    + destruct (i_locked _ IV o H S0) as (t & A & Bl & C). exists t. rewrite RT. split; auto. apply in_or_app. auto.
  - intros t t' c I1 I2 L1 L2 S1 S2. rewrite RT in I1, I2. apply in_app_or in I1. apply in_app_or in I2.
    destruct I1 as [I1|[<-|[]]], I2 as [I2|[<-|[]]]; auto.
    + apply (i_disj _ IV t t' c); auto.
    + exfalso. apply TS in S2. exact (NS t c I1 L1 S2 S1).
    + exfalso. apply TS in S1. exact (NS t' c I2 L2 S1 S2).
  - intros o t Ho S0 It Lv Sp. rewrite RT in It. apply in_app_or in It. apply RD in Ho.
    destruct Ho as [(i & Hi & ->)|[H|(H & H0)]].
    + cbn in S0. intuition discriminate.
    + destruct It as [It|[<-|[]]].
      * apply (CF (c_commitment o)); [apply in_map; exact H|]. exact (i_known _ IV t _ It Lv Sp).
      * apply TS in Sp. apply (CF (c_commitment o)); [apply in_map; exact H|]. apply CI. exact Sp.
    + destruct It as [It|[<-|[]]].
      * exact (i_free _ IV o t H S0 It Lv Sp).
      * apply TS in Sp. contradiction.
  - intros t c It Lv Sp. rewrite RT in It. apply in_app_or in It.
    assert (K : In c (coms (d_outputs d))).
    { destruct It as [It|[<-|[]]]; [exact (i_known _ IV t c It Lv Sp)|]. apply CI. apply TS. exact Sp. }
    unfold coms in K. apply in_map_iff in K. destruct K as (o & <- & Io).
    destruct (in_dec (list_eq_dec N.eq_dec) (c_commitment o) (coms inputs)) as [D|D].
    + unfold coms in D. apply in_map_iff in D. destruct D as (i & Ei & Ii). rewrite <- Ei.
      change (c_commitment i) with (c_commitment (SetStatus LOCKED i)). apply in_map. apply RD. left. eauto.
    + apply in_map. apply RD. auto.
  - intros id' x. rewrite B11. intros H. apply in_app_or in H. destruct H as [H|[H|[]]].
    + destruct (i_ctx _ IV id' x H) as (t & A & Bc & C & D). exists t. rewrite RT. split; [apply by_slate_app; exact A|]. auto.
    + injection H as <- <-. exists tx. rewrite RT. split; [apply by_slate_new; auto; unfold tx, BuildWalletTx; cbn; congruence|].
      split; [left; exact LV|]. split; [exact TS|]. cbn [x_inputs x_outputs]. intros c Hc Hi. apply (CF c Hc). apply CI. exact Hi.
Qed.

Lemma send_inv_preserved nv d id sc : inv d -> op_ok commit_of d (OpSend nv id sc) ->
  inv (snd (Send sort env min_confs commit_of ndebug nv d id sc)).
Proof.
  intros IV (RO & LT & LN & FS & FP). pose proof (i_wf _ IV) as W. pose proof (proj1 RO) as NW.
  assert (IR : inv (snd (Refresh nv d))) by (destruct (Refresh nv d) as (o & d1) eqn:R; exact (refresh_inv _ _ _ _ IV RO R)).
  assert (AV : snd (GetAllAvailableCoins env min_confs nv d) = d \/ snd (GetAllAvailableCoins env min_confs nv d) = snd (Refresh nv d)).
  { unfold GetAllAvailableCoins. destruct (n_tip nv); auto. right. destruct (Refresh nv d). reflexivity. }
  destruct (Send sort env min_confs commit_of ndebug nv d id sc) as (o & d2) eqn:E. cbn [snd].
  destruct o as [slate| |].
  - apply send_inv in E. destruct E as (coins & d1 & inputs & a & fee & n & G & P & B).
    apply plan_chosen in P. destruct P as (CH & ->).
    destruct (available_spec nv d coins d1 W NW G) as (ED & NC & SP). rewrite <- ED in *.
    destruct (chosen_coms _ _ CH NC) as (NI & II). destruct (i_acc _ IV) as (r & EA).
    assert (EC : (if match sc_amount sc with Some _ => false | None => true end then 0 else sc_numOutputs sc) = changes_wanted sc)
      by (unfold changes_wanted; destruct (sc_amount sc); reflexivity).
    rewrite EC in B.
    assert (EAR : d_accounts (snd (Refresh nv d)) = at_index r) by (rewrite refresh_accounts; exact EA).
    apply (build_inv _ r id a fee (changes_wanted sc) inputs slate d2 IR EAR); auto.
    + unfold changes_wanted. destruct (sc_amount sc); lia.
    + pose proof (refresh_next nv d W NW). lia.
    + apply refresh_slates; auto.
    + intros p x Ip H. apply (refresh_coms nv d _ W NW) in H. revert H.
      eapply FP; [|exact Ip]. rewrite EA. unfold new_paths. apply next_paths_spec.
  - unfold Send in E. destruct (GetAllAvailableCoins env min_confs nv d) as (oc & d1). cbn [snd] in AV.
    assert (d2 = d1) as ->.
    { match type of E with (match ?x with _ => _ end) = _ => destruct x as [(s & d3)| |] end; [discriminate|congruence|discriminate]. }
    destruct AV as [->| ->]; auto.
  - unfold Send in E. destruct (GetAllAvailableCoins env min_confs nv d) as (oc & d1). cbn [snd] in AV.
    assert (d2 = d1) as ->.
    { match type of E with (match ?x with _ => _ end) = _ => destruct x as [(s & d3)| |] end; [discriminate|discriminate|congruence]. }
    destruct AV as [->| ->]; auto.
Qed.

(** *** receive *)
Lemma receive_inv_preserved d s ok : inv d -> op_ok commit_of d (OpReceive s ok) -> inv (snd (Receive commit_of d s ok)).
Proof.
  intros IV (Lt & FP). destruct (i_acc _ IV) as (r & EA). unfold Receive.
  destruct (negb _); [exact IV|]. rewrite EA, next_child. cbn [GetNextTransactionId set_accounts d_nextTx].
  destruct ok; [|exact IV]. cbn [snd].
  pose proof (i_wf _ IV) as (W1 & W2 & W3).
  set (o := CreateBlindedOutput commit_of (s_amount s) (child r) (d_nextTx d)).
  assert (FO : ~ In (c_commitment o) (coms (d_outputs d))).
  { apply (FP [child r] (at_index (r + 1)) (child r)); [|left; reflexivity].
    rewrite EA. change (N.to_nat 1) with 1%nat. rewrite next_paths_spec. cbn [seq map]. rewrite N.add_0_r. reflexivity. }
  set (t := mkWalletTx (d_nextTx d) RECEIVING_IN_PROGRESS _ _ _ _ _ _).
  set (d2 := SaveSlate _ _).
  assert (EO : d_outputs d2 = d_outputs d ++ [o]).
  { unfold d2, SaveSlate, AddTransaction, AddOutputs, set_txs, set_outputs, set_nextTx, set_accounts. cbn -[save_output save_tx].
    apply save_output_new. exact FO. }
  assert (ET : d_txs d2 = d_txs d ++ [t]).
  { unfold d2, SaveSlate, AddTransaction, AddOutputs, set_txs, set_outputs, set_nextTx, set_accounts. cbn -[save_output save_tx].
    apply save_tx_new. intros Q. apply W3 in Q. cbn in Q. lia. }
  assert (NL : ~ live t) by (unfold live; cbn; intuition discriminate).
  assert (TX : forall u, In u (d_txs d2) -> live u -> In u (d_txs d)).
  { intros u. rewrite ET, in_app_iff. intros [H|[<-|[]]] Lv; [exact H|contradiction]. }
  constructor.
  - split; [|split].
    + rewrite EO. unfold coms. rewrite map_app. apply nodup_app; auto; [repeat constructor; auto|]. intros c Hc [<-|[]]. apply FO. exact Hc.
    + rewrite ET. unfold ids. rewrite map_app. apply nodup_app; auto; [repeat constructor; auto|]. intros i Hi [<-|[]]. apply W3 in Hi. cbn in Hi. lia.
    + intros i. rewrite ET. change (d_nextTx d2) with ((d_nextTx d + 1) mod W32). rewrite N.mod_small by lia.
      unfold ids. rewrite map_app, in_app_iff. cbn. intros [H|[<-|[]]]; [apply W3 in H|]; lia.
  - exists (r + 1). reflexivity.
  - intros x Hx S0. rewrite EO in Hx. apply in_app_or in Hx. destruct Hx as [Hx|[<-|[]]]; [|discriminate].
    destruct (i_locked _ IV x Hx S0) as (u & A & B & C). exists u. rewrite ET. split; auto. apply in_or_app. auto.
  - intros u u' c I1 I2 L1 L2. apply (i_disj _ IV); auto.
  - intros x u Hx S0 Iu Lv. apply TX in Iu; auto. rewrite EO in Hx. apply in_app_or in Hx. destruct Hx as [Hx|[<-|[]]].
    + apply (i_free _ IV); auto.
    + intros Sp. apply FO. exact (i_known _ IV u _ Iu Lv Sp).
  - intros u c Iu Lv Sp. apply TX in Iu; auto. rewrite EO. unfold coms. rewrite map_app. apply in_or_app. left. exact (i_known _ IV u c Iu Lv Sp).
  - intros id x Hx. change (d_contexts d2) with (d_contexts d) in Hx. destruct (i_ctx _ IV id x Hx) as (u & A & B).
    exists u. rewrite ET. split; [apply by_slate_app; exact A|exact B].
Qed.

(** *** finalize *)
Lemma add_inputs_spec l : forall cs c, In (c, false) (fold_left AddInput l cs) <-> In (c, false) cs \/ (In c l /\ ~ In c (map fst cs)).
Proof.
  induction l as [|a l IH]; intros cs c; cbn [fold_left In]; [tauto|]. rewrite IH. clear IH. unfold AddInput.
  destruct (existsb (fun p => bytes_eqb (fst p) a) cs) eqn:E.
  - assert (Ia : In a (map fst cs)).
    { apply existsb_exists in E. destruct E as (p & A & B). apply bytes_eqb_spec in B. rewrite <- B. apply in_map. exact A. }
    split; [tauto|]. intros [H|([<-|H] & H0)]; auto; contradiction.
  - assert (Na : ~ In a (map fst cs)).
    { intros H. apply in_map_iff in H. destruct H as (p & A & B). assert (X : existsb (fun p => bytes_eqb (fst p) a) cs = true).
      { apply existsb_exists. exists p. split; auto. apply bytes_eqb_spec. exact A. } congruence. }
    rewrite map_app, !in_app_iff. cbn [In map fst].
    destruct (list_eq_dec N.eq_dec a c) as [->|D].
    + split; [intros [[H|[H|[]]]|H]; tauto|]. intros _. left. right. left. reflexivity.
    + split.
      * intros [[H|[H|[]]]|(H & H0)]; [tauto|congruence|]. right. split; auto.
      * intros [H|([H|H] & H0)]; [tauto|congruence|]. right. split; auto. intros [Q|[Q|[]]]; congruence || contradiction.
Qed.
Lemma add_outputs_spec l : forall cs c, ~ In c l -> (In (c, false) (fold_left AddOutput l cs) <-> In (c, false) cs).
Proof.
  induction l as [|a l IH]; intros cs c H; cbn [fold_left]; [tauto|]. rewrite IH by (intros Q; apply H; right; exact Q).
  assert (D : a <> c) by (intros ->; apply H; left; reflexivity). unfold AddOutput. destruct (existsb _ cs).
  - clear - D. induction cs as [|p cs IH]; cbn [set_proof]; [tauto|]. destruct (bytes_eqb (fst p) a) eqn:Q.
    + apply bytes_eqb_spec in Q. cbn [In]. split; intros [E|E]; auto; [inversion E|]. subst p. cbn in Q. congruence.
    + cbn [In]. rewrite IH. tauto.
  - rewrite in_app_iff. cbn [In]. split; [intros [E|[E|[]]]; auto; discriminate|auto].
Qed.
Lemma slate_inputs s c : In c (Slate_GetInputs s) <-> In (c, false) (s_coms s).
Proof.
  unfold Slate_GetInputs. rewrite in_map_iff. split.
  - intros ((x & f) & <- & H). apply filter_In in H. destruct H as (A & B). destruct f; [discriminate|exact A].
  - intros H. exists (c, false). split; auto. apply filter_In. auto.
Qed.
Lemma finalize_inv_preserved d s ok : inv d -> op_ok commit_of d (OpFinalize s ok) -> inv (snd (Finalize d s ok)).
Proof.
  intros IV OK. cbn [op_ok] in OK. unfold Finalize.
  destruct (LoadSlate _ _ _) as [ss|]; [|exact IV]. destruct (tx_by_slate (s_id s) (d_txs d)) as [t|] eqn:T; [|exact IV].
  destruct (LoadSlateContext (s_id s) d) as [x|] eqn:X; [|exact IV]. destruct ok; [|exact IV]. cbn [snd].
  destruct (OK t eq_refl) as (NC & RC). clear OK.
  unfold LoadSlateContext in X. destruct (find _ (d_contexts d)) as [(id & x0)|] eqn:FX; [|discriminate]. cbn [snd] in X. injection X as ->.
  apply find_some in FX. destruct FX as (IX & EX). cbn [fst] in EX. apply bytes_eqb_spec in EX. subst id.
  destruct (i_ctx _ IV _ _ IX) as (t0 & T0 & SD & IA & DJ). rewrite T in T0. injection T0 as <-.
  assert (LV : live t) by (destruct SD as [?|?]; [assumption|contradiction]).
  set (slate := mkSlate (s_id s) STANDARD_FINALIZED _ _ _).
  set (t' := SetTransaction _ _).
  set (d2 := AddTransaction _ _).
  destruct (by_slate_in _ _ _ T) as (It & Sl).
  pose proof (i_wf _ IV) as (W1 & W2 & W3).
  assert (EI : w_id t' = w_id t) by reflexivity.
  assert (ES : w_slate t' = w_slate t) by reflexivity.
  assert (LV' : live t') by (right; left; reflexivity).
  assert (ET : d_txs d2 = save_tx (d_txs d) t') by reflexivity.
  assert (SP : forall c, spends t' c <-> spends t c).
  { intros c. rewrite (IA c). unfold spends, t', SetTransaction. cbn [w_tx].
    transitivity (In c (Slate_GetInputs slate)).
    { split; [intros (y & [= <-] & H); exact H|intros H; eexists; split; [reflexivity|exact H]]. }
    rewrite slate_inputs. unfold slate. cbn [s_coms].
    change (map c_commitment (x_outputs x)) with (coms (x_outputs x)). change (map c_commitment (x_inputs x)) with (coms (x_inputs x)).
    assert (RF : ~ In (c, false) (s_coms s)) by (intros H; apply RC in H; destruct H; discriminate).
    destruct (in_dec (list_eq_dec N.eq_dec) c (coms (x_outputs x))) as [D|D].
    - split; [|intros H; exfalso; exact (DJ c D H)]. intros H. exfalso.
      assert (G : forall l cs, In (c, false) (fold_left AddOutput l cs) -> In (c, false) cs).
      { clear. induction l as [|a l IH]; intros cs; cbn [fold_left]; auto. intros H. apply IH in H. revert H. unfold AddOutput.
        destruct (existsb _ cs).
        - induction cs as [|p cs IHc]; cbn [set_proof]; auto. destruct (bytes_eqb (fst p) a); cbn [In]; intros [E|E]; auto; inversion E.
        - rewrite in_app_iff. intros [E|[E|[]]]; auto. discriminate. }
      apply G in H. apply add_inputs_spec in H. destruct H as [H|(H & _)]; [contradiction|]. exact (DJ c D H).
    - rewrite add_outputs_spec by exact D. rewrite add_inputs_spec. split.
      + intros [H|(H & _)]; [contradiction|exact H].
      + intros H. right. split; auto. intros Q. apply in_map_iff in Q. destruct Q as ((c' & f) & Ec & Q). cbn in Ec. subst c'.
        apply RC in Q. apply (proj2 Q). apply IA. exact H. }
  assert (IN : forall u, In u (d_txs d2) -> exists v, In v (d_txs d) /\ (live u -> live v) /\ (forall c, spends u c <-> spends v c) /\ w_id u = w_id v).
  { intros u. rewrite ET. rewrite (save_tx_in _ t' t) by auto. intros [->|(A & B)]; [exists t|exists u]; auto. repeat split; auto; apply SP. }
  assert (OUT : forall v, In v (d_txs d) -> live v -> exists u, In u (d_txs d2) /\ live u /\ (forall c, spends u c <-> spends v c)).
  { intros v Iv Lv. destruct (N.eq_dec (w_id v) (w_id t)) as [E|E].
    - assert (v = t) by (apply (nodup_id_eq (d_txs d)); auto). subst v. exists t'. split; [rewrite ET; apply (save_tx_in _ t' t); auto|]. split; auto.
    - exists v. split; [rewrite ET; apply (save_tx_in _ t' t); auto; right; split; auto; intros ->; congruence|]. split; auto. reflexivity. }
  assert (WID : NoDup (ids (d_txs d2))) by (rewrite ET, (save_tx_ids _ t' t); auto).
  constructor.
  - split; [exact W1|]. split; [exact WID|]. intros i. rewrite ET, (save_tx_ids _ t' t) by auto. apply W3.
  - exact (i_acc _ IV).
  - intros o Ho S0. destruct (i_locked _ IV o Ho S0) as (v & A & B & C). destruct (OUT v A B) as (u & A' & B' & C'). exists u. rewrite C'. auto.
  - intros u u' c I1 I2 L1 L2 S1 S2. destruct (IN u I1) as (v & A & B & C & E). destruct (IN u' I2) as (v' & A' & B' & C' & E').
    apply (nodup_id_eq (d_txs d2)); auto. rewrite E, E'. f_equal.
    apply (i_disj _ IV v v' c); auto; [apply C|apply C']; assumption.
  - intros o u Ho S0 Iu Lv Sp. destruct (IN u Iu) as (v & A & B & C & E). apply C in Sp. exact (i_free _ IV o v Ho S0 A (B Lv) Sp).
  - intros u c Iu Lv Sp. destruct (IN u Iu) as (v & A & B & C & E). apply C in Sp. exact (i_known _ IV v c A (B Lv) Sp).
  - intros id y Hy. change (d_contexts d2) with (d_contexts d) in Hy. destruct (i_ctx _ IV id y Hy) as (v & A & B & C & D).
    exists (if w_id v =? w_id t' then t' else v). split; [rewrite ET, (save_tx_slate _ t' t) by auto; rewrite A; reflexivity|].
    destruct (N.eqb_spec (w_id v) (w_id t')) as [E|E]; [|auto].
    assert (v = t) by (apply (nodup_id_eq (d_txs d)); auto; apply by_slate_in in A; apply A). subst v.
    split; [left; exact LV'|]. split; auto. intros c. rewrite SP. apply C.
Qed.

(** *** cancel *)
Definition cancelled (inputs : list bytes) (t : WalletTx) (o : OutputDataEntity) : option OutputDataEntity :=
  match cancel_output inputs t o with Ret u => u | _ => None end.
Lemma cancelled_keeps inputs t : keeps_com (cancelled inputs t).
Proof.
  intros o o'. unfold cancelled, cancel_output. destruct (existsb _ inputs).
  - destruct (c_status o); try (destruct (w_type t)); intros H; try discriminate; injection H as <-; reflexivity.
  - destruct (match c_tx o with Some _ => _ | None => _ end); [|discriminate].
    destruct (c_status o); intros H; try discriminate; injection H as <-; reflexivity.
Qed.
Lemma to_update inputs t outs us : GetOutputsToUpdate inputs t outs = Ret us ->
  us = changes (cancelled inputs t) outs /\ forall o, In o outs -> exists u, cancel_output inputs t o = Ret u.
Proof.
  revert us. induction outs as [|o outs IH]; intros us; cbn [GetOutputsToUpdate changes flat_map].
  - intros [= <-]. split; [reflexivity|contradiction].
  - unfold cancelled at 1. destruct (cancel_output inputs t o) as [u| |] eqn:E; cbn [obind]; try discriminate.
    destruct (GetOutputsToUpdate inputs t outs) as [vs| |]; cbn [obind]; try discriminate. destruct (IH vs eq_refl) as (-> & H).
    intros [= <-]. split; [destruct u; reflexivity|]. intros x [<-|Hx]; eauto.
Qed.
(** what cancelling does to one output *)
Lemma cancelled_cases inputs t o u : cancel_output inputs t o = Ret u -> w_type t = SENT_CANCELED \/ inputs = [] ->
  let o' := upd (cancelled inputs t) o in
  (o' = o /\ (c_status o = LOCKED -> ~ In (c_commitment o) inputs)) \/
  (o' = SetStatus SPENDABLE o /\ c_status o = LOCKED /\ In (c_commitment o) inputs) \/
  (o' = SetStatus CANCELED o /\ (c_status o = NO_CONFIRMATIONS \/ c_status o = SPENT) /\ (In (c_commitment o) inputs \/ c_tx o = Some (w_id t))).
Proof.
  intros E TY. cbn zeta. unfold upd, cancelled. rewrite E. revert E. unfold cancel_output.
  destruct (existsb (bytes_eqb (c_commitment o)) inputs) eqn:X.
  - apply existsb_in in X. destruct TY as [TY|TY]; [|subst; destruct X]. rewrite TY.
    destruct (c_status o) eqn:S0; intros H; injection H as <-; auto 6; left; split; auto; discriminate.
  - assert (NI : ~ In (c_commitment o) inputs) by (intros H; apply existsb_in in H; congruence).
    destruct (c_tx o) as [i|]; [destruct (N.eqb_spec i (w_id t)) as [->|]|]; try (intros H; injection H as <-; auto).
    destruct (c_status o); intros H; try discriminate; injection H as <-; auto 7.
Qed.
Lemma cancel_spec d t d' : NoDup (coms (d_outputs d)) -> CancelWalletTx d t = Ret d' ->
  exists t' inputs, w_id t' = w_id t /\ w_slate t' = w_slate t /\ w_tx t' = w_tx t /\ ~ live t' /\
    ((w_type t = RECEIVING_IN_PROGRESS /\ w_type t' = RECEIVED_CANCELED /\ inputs = []) \/
     ((w_type t = SENDING_STARTED \/ w_type t = SENDING_FINALIZED) /\ w_type t' = SENT_CANCELED /\ (forall c, In c inputs <-> spends t c))) /\
    d_outputs d' = map (upd (cancelled inputs t')) (d_outputs d) /\
    (forall o, In o (d_outputs d) -> exists u, cancel_output inputs t' o = Ret u) /\
    d' = set_txs (save_tx (d_txs d) t') (set_outputs (d_outputs d') d).
Proof.
  intros N. unfold CancelWalletTx.
  set (ot := match w_type t with RECEIVING_IN_PROGRESS => _ | _ => _ end).
  destruct ot as [t'| |] eqn:OT; cbn [obind]; try discriminate. unfold ot in OT. clear ot.
  set (inputs := match w_type t' with SENT_CANCELED => _ | _ => _ end).
  destruct (GetOutputsToUpdate inputs t' (d_outputs d)) as [us| |] eqn:GU; cbn [obind]; try discriminate.
  apply to_update in GU. destruct GU as (-> & AU). intros H. injection H as <-.
  exists t', inputs.
  assert (TT : (w_type t = RECEIVING_IN_PROGRESS /\ t' = SetType RECEIVED_CANCELED t) \/ ((w_type t = SENDING_STARTED \/ w_type t = SENDING_FINALIZED) /\ t' = SetType SENT_CANCELED t)).
  { destruct (w_type t); try discriminate; injection OT as <-; auto. }
  assert (EO : fold_left save_output (changes (cancelled inputs t') (d_outputs d)) (d_outputs d) = map (upd (cancelled inputs t')) (d_outputs d)).
  { apply (save_changes _ (cancelled_keeps inputs t') (d_outputs d) []). exact N. }
  split; [destruct TT as [(_ & ->)|(_ & ->)]; reflexivity|]. split; [destruct TT as [(_ & ->)|(_ & ->)]; reflexivity|].
  split; [destruct TT as [(_ & ->)|(_ & ->)]; reflexivity|].
  split; [destruct TT as [(_ & ->)|(_ & ->)]; unfold live; cbn; intuition discriminate|].
  split.
  { destruct TT as [(A & ->)|(A & ->)]; [left|right]; (split; [exact A|]); (split; [reflexivity|]); unfold inputs; cbn [SetType w_type w_tx].
    - reflexivity.
    - intros c. unfold spends. destruct (w_tx t) as [x|].
      + split; [intros H; exists x; auto|intros (y & [= <-] & H); exact H].
      + split; [contradiction|intros (y & H & _); discriminate]. }
  split; [exact EO|]. split; [exact AU|]. reflexivity.
Qed.
Lemma cancel_inv_preserved d id : inv d -> inv (snd (CancelTx d id)).
Proof.
  intros IV. unfold CancelTx. destruct (find _ (d_txs d)) as [t|] eqn:F; [|exact IV].
  destruct (CancelWalletTx d t) as [d'| |] eqn:C; [|exact IV|exact IV]. cbn [snd].
  apply find_some in F. destruct F as (It & _). pose proof (i_wf _ IV) as (W1 & W2 & W3).
  destruct (cancel_spec d t d' W1 C) as (t' & inputs & EI & ES & EX & NL & TY & EO & AU & ED).
  assert (TY' : w_type t' = SENT_CANCELED \/ inputs = []) by (destruct TY as [(_ & _ & H)|(_ & H & _)]; auto).
  assert (ET : d_txs d' = save_tx (d_txs d) t') by (rewrite ED; reflexivity).
  assert (EC : d_contexts d' = d_contexts d) by (rewrite ED; reflexivity).
  assert (EA : d_accounts d' = d_accounts d) by (rewrite ED; reflexivity).
  assert (EN : d_nextTx d' = d_nextTx d) by (rewrite ED; reflexivity).
  clear ED C.
  assert (CO : coms (d_outputs d') = coms (d_outputs d)) by (rewrite EO; apply upd_coms, cancelled_keeps).
  assert (LI : forall u, In u (d_txs d') -> live u -> In u (d_txs d) /\ u <> t).
  { intros u. rewrite ET. rewrite (save_tx_in _ t' t) by auto. intros [->|H] Lv; [contradiction|exact H]. }
  assert (LO : forall u, In u (d_txs d) -> u <> t -> In u (d_txs d')).
  { intros u A B. rewrite ET. apply (save_tx_in _ t' t); auto. }
  assert (ROW : forall o', In o' (d_outputs d') -> exists o, In o (d_outputs d) /\ c_commitment o' = c_commitment o /\
     ((o' = o /\ (c_status o = LOCKED -> ~ In (c_commitment o) inputs)) \/ (c_status o' = SPENDABLE /\ c_status o = LOCKED /\ In (c_commitment o) inputs) \/ c_status o' = CANCELED)).
  { intros o'. rewrite EO. intros H. apply in_map_iff in H. destruct H as (o & <- & Ho). exists o. split; auto.
    split; [apply upd_com, cancelled_keeps|]. destruct (AU o Ho) as (u & Eu). pose proof (cancelled_cases inputs t' o u Eu TY') as CC. cbv zeta in CC.
    destruct CC as [(A & B)|[(A & B & D)|(A & B & D)]]; [left; auto|right; left|right; right]; rewrite A; auto. }
  assert (IS : forall c, In c inputs -> live t /\ spends t c).
  { intros c Hc. destruct TY as [(_ & _ & ->)|(A & _ & B)]; [destruct Hc|]. split; [unfold live; tauto|]. apply B. exact Hc. }
  constructor.
  - split; [rewrite CO; exact W1|]. rewrite EN, ET, (save_tx_ids _ t' t) by auto. auto.
  - rewrite EA. exact (i_acc _ IV).
  - intros o' Ho' S0. destruct (ROW o' Ho') as (o & Ho & EQ & [(-> & NI)|[(A & _)|A]]); try congruence.
    destruct (i_locked _ IV o Ho S0) as (u & Iu & Lu & Su). exists u. split; auto. apply LO; auto. intros ->.
    apply (NI S0). destruct TY as [(A & _)|(_ & _ & B)]; [|apply B; exact Su].
    exfalso. unfold live in Lu. rewrite A in Lu. intuition discriminate.
  - intros u u' c I1 I2 L1 L2. apply (i_disj _ IV); auto; apply LI; auto.
  - intros o' u Ho' S0 Iu Lu Su. destruct (LI u Iu Lu) as (Iu0 & NE). destruct (ROW o' Ho') as (o & Ho & EQ & [(-> & _)|[(_ & _ & A)|A]]).
    + exact (i_free _ IV o u Ho S0 Iu0 Lu Su).
    + rewrite EQ in Su. apply IS in A. destruct A as (Lt & St). apply NE. exact (i_disj _ IV u t _ Iu0 It Lu Lt Su St).
    + rewrite A in S0. intuition discriminate.
  - intros u c Iu Lu Su. rewrite CO. destruct (LI u Iu Lu) as (A & _). exact (i_known _ IV u c A Lu Su).
  - intros i x. rewrite EC. intros Hx. destruct (i_ctx _ IV i x Hx) as (v & A & B & D & E).
    exists (if w_id v =? w_id t' then t' else v). split; [rewrite ET, (save_tx_slate _ t' t) by auto; rewrite A; reflexivity|].
    destruct (N.eqb_spec (w_id v) (w_id t')) as [Q|Q]; [|auto].
    assert (v = t) by (apply (nodup_id_eq (d_txs d)); auto; [apply by_slate_in in A; apply A|congruence]). subst v.
    split.
    + right. destruct TY as [(H & _)|(_ & H & _)]; auto. exfalso. unfold sending, live in B. rewrite H in B. intuition discriminate.
    + split; auto. intros c. unfold spends. rewrite EX. apply D.
Qed.

Lemma step_inv d op : inv d -> op_ok commit_of d op -> inv (wallet_step sort env min_confs commit_of ndebug d op).
Proof.
  intros IV OK. destruct op; cbn [wallet_step].
  - apply send_inv_preserved; auto.
  - exact (receive_inv_preserved d slate ok IV OK).
  - exact (finalize_inv_preserved d slate ok IV OK).
  - apply cancel_inv_preserved; auto.
  - destruct (Refresh nv d) as (o & d1) eqn:R. exact (refresh_inv _ _ _ _ IV OK R).
Qed.
Lemma run_inv ops : forall d, inv d -> history sort env min_confs commit_of ndebug d ops -> inv (wallet_run sort env min_confs commit_of ndebug ops d).
Proof.
  induction ops as [|op ops IH]; intros d IV H; cbn [wallet_run fold_left] in *; auto. destruct H as (A & B).
  apply IH; auto. apply step_inv; auto.
Qed.
End Ops.
