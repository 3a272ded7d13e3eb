(** C31, C32, C33: the transaction pools. *)
From Coq Require Import Permutation.
From Verif Require Import Base Bytes FileModel CodecModel ConsensusModel MMRHashProps ValidationModel ValidationSpec ValidationProofs ValidationProps
  UtxoModel UtxoSpec UtxoProps PoolModel PoolSpec PoolProofs.
Local Open Scope N_scope.

Section Props.
Variable Blake2b : bytes -> bytes.
Variable VRP : list (bytes * bytes) -> bool.
Variable VKS : list bytes -> list bytes -> list bytes -> bool.
Variable AddC : list bytes -> list bytes -> outcome bytes.
Variable CT : N -> bytes.
Variable CB : N -> bytes -> bytes.
Variable AddBF : list bytes -> list bytes -> outcome bytes.
Variable env : Environment.
Variable fee_base : N.
Variable stemProbability embargoSeconds : N.
Notation acceptable := (acceptable Blake2b VRP VKS AddC CT CB env).
Notation acceptable_together := (acceptable_together Blake2b VRP VKS AddC CT CB AddBF env).
Notation each_with_earlier := (each_with_earlier Blake2b VRP VKS AddC CT CB AddBF env).
Notation ReconcileBlock := (ReconcileBlock Blake2b VRP VKS AddC CT CB AddBF env).
Notation AddTransaction := (AddTransaction Blake2b VRP VKS AddC CT CB env fee_base stemProbability).
Notation hash := (tx_hash Blake2b).
Notation reached := (pool_reached Blake2b VRP VKS AddC CT CB AddBF env fee_base stemProbability embargoSeconds).
Notation step := (pool_step Blake2b VRP VKS AddC CT CB AddBF env fee_base stemProbability embargoSeconds).

(** * C31. After reconciling with a block: nothing new is in the pools; no pooled transaction has an input or a kernel of the block; every
    transaction of the memory pool is acceptable together with those before it, and every one of the stem pool together with those before
    it and the whole memory pool. Missing: the height they are checked for is that of the block itself, not the next one
    ([C31_next_height_refuted]). *)
Theorem C31_reconciled_partial d s flushed b p p' :
  ReconcileBlock d s flushed b p = (Ret tt, p') -> h_height flushed + 1 < W64 ->
  distinct_hashes hash (map e_tx (m_memPool p)) -> distinct_hashes hash (map e_tx (m_stemPool p)) ->
  let height := h_height flushed + 1 in
  incl (m_memPool p') (m_memPool p) /\ incl (m_stemPool p') (m_stemPool p) /\
  Forall (shares_nothing b) (map e_tx (m_memPool p' ++ m_stemPool p')) /\
  each_with_earlier d s height [] (map e_tx (m_memPool p')) /\
  ((m_memPool p' = [] /\ each_with_earlier d s height [] (map e_tx (m_stemPool p'))) \/
   (exists whole, Aggregate Blake2b AddBF (map e_tx (m_memPool p')) = Ret whole /\ each_with_earlier d s height [whole] (map e_tx (m_stemPool p')))).
Proof.
  intros E L U1 U2. destruct (reconcile_ok _ _ _ _ _ _ _ _ _ _ _ _ _ _ E U1 U2) as (A & B & C & D & extra & F & G). rewrite add64_small in * by exact L. cbv zeta.
  split; [exact A|]. split; [exact B|]. split; [exact C|]. split; [exact D|]. unfold Pool_Aggregate in F. destruct (m_memPool p') as [|e l].
  - apply Ret_inj in F. subst extra. left. split; [reflexivity|exact G].
  - right. unfold Aggregate_txs in F. destruct (Aggregate Blake2b AddBF (map e_tx (e :: l))) as [w| |]; try discriminate. cbn [obind] in F. apply Ret_inj in F. subst extra. exists w. split; [reflexivity|exact G].
Qed.

(** What is not in conflict with the block or with another transaction stays, in the same order. *)
Theorem C31_nothing_lost d s flushed b p :
  h_height flushed + 1 < W64 ->
  distinct_hashes hash (map e_tx (m_memPool p)) -> NoDup (map e_tx (m_memPool p)) ->
  let mem := filter (fun e => negb (ShouldEvict Blake2b (e_tx e) b)) (m_memPool p) in
  each_with_earlier d s (h_height flushed + 1) [] (map e_tx mem) ->
  m_stemPool p = [] -> (mem <> [] -> exists whole, Aggregate Blake2b AddBF (map e_tx mem) = Ret whole) ->
  ReconcileBlock d s flushed b p = (Ret tt, mkPool mem []).
Proof.
  intros L U N mem V Es Ag. unfold PoolModel.ReconcileBlock.
  rewrite (pool_reconcile_all Blake2b VRP VKS AddC CT CB AddBF env d s flushed b None (m_memPool p) U N) by (rewrite add64_small by exact L; exact V). fold mem.
  unfold Pool_Aggregate. destruct mem as [|e l].
  - rewrite Es. reflexivity.
  - destruct (Ag ltac:(discriminate)) as (w & Ew). unfold Aggregate_txs. rewrite Ew. cbn [obind]. rewrite Es. reflexivity.
Qed.
(** Only transactions that have an input or kernel of the block are evicted as such (unless two kernels have the same hash). *)
Theorem C31_evicted_shares t b : ShouldEvict Blake2b t b = true ->
  (exists i, In i (b_inputs (t_body t)) /\ In i (b_inputs (fb_body b))) \/
  (exists k k', In k (b_kernels (t_body t)) /\ In k' (b_kernels (fb_body b)) /\ kernel_hash Blake2b k = kernel_hash Blake2b k').
Proof.
  unfold ShouldEvict. intros E. apply orb_true_iff in E as [E|E].
  - left. apply existsb_exists in E as (i & J & E). apply existsb_exists in E as (i' & J' & E). unfold input_eqb in E. apply andb_true_iff in E as (E1 & E2). apply N.eqb_eq in E1.
    apply bytes_eqb_spec in E2. exists i. split; [exact J|]. replace i with i'; [exact J'|]. destruct i, i'. cbn in *. subst. reflexivity.
  - right. apply existsb_exists in E as (k & J & E). apply existsb_exists in E as (k' & J' & E). apply bytes_eqb_spec in E. exists k, k'. auto.
Qed.
(** A commitment that the block has spent (it is in no position of the database any more) is an input of a pooled transaction only if
    another one of the memory pool creates it again; the feature byte of the input does not matter. *)
Theorem C31_spent_inputs_gone d s flushed b p p' t i :
  ReconcileBlock d s flushed b p = (Ret tt, p') ->
  distinct_hashes hash (map e_tx (m_memPool p)) -> distinct_hashes hash (map e_tx (m_stemPool p)) ->
  In t (map e_tx (m_memPool p')) -> In i (b_inputs (t_body t)) -> GetOutputPosition d (i_commitment i) = None ->
  exists t', In t' (map e_tx (m_memPool p')) /\ In (i_commitment i) (output_commitments (t_body t')).
Proof.
  intros E U1 U2 J Ji G. destruct (reconcile_ok _ _ _ _ _ _ _ _ _ _ _ _ _ _ E U1 U2) as (_ & _ & _ & D & _).
  assert (Ne : map e_tx (m_memPool p') <> []) by (intros Z; rewrite Z in J; destruct J).
  destruct (together_spends _ _ _ _ _ _ _ _ _ _ _ _ _ _ (each_whole _ _ _ _ _ _ _ _ _ _ _ _ D Ne) J Ji) as [K|K]; [contradiction|exact K].
Qed.

(** * C32. What is admitted: exactly the transactions that are not there already, pay enough, are not locked beyond the next block and are
    acceptable by themselves. Whether they fit with the other pooled transactions is not asked. *)
Theorem C32_admission_exact d s t ty tip random p r p' :
  AddTransaction d (Some s) t ty tip random p = (Ret r, p') -> h_height tip + 1 < W64 ->
  let height := h_height tip + 1 in
  (r = ADDED <-> (ty = MEMPOOL -> ~ In (hash (p_tx t)) (map (fun e => hash (e_tx e)) (m_memPool p))) /\
     FeeMeetsMinimum env fee_base (p_tx t) height = Ret true /\ Forall (fun k => k_lockHeight k <= height) (b_kernels (t_body (p_tx t))) /\ acceptable d s height (p_tx t)) /\
  (r <> ADDED -> p' = p) /\
  (r = ADDED -> ty = MEMPOOL -> map e_tx (m_memPool p') = map e_tx (m_memPool p) ++ [p_tx t] /\ incl (m_stemPool p') (m_stemPool p)) /\
  (r = ADDED -> ty = STEMPOOL -> m_memPool p' = m_memPool p /\ map e_tx (m_stemPool p') = map e_tx (m_stemPool p) ++ [p_tx t]).
Proof.
  unfold PoolModel.AddTransaction. intros E L. rewrite add64_small in E by exact L. cbv zeta. unfold PoolSpec.acceptable. unfold Validate in E.
  assert (Dup : ContainsTransaction Blake2b (m_memPool p) (p_tx t) = true <-> In (hash (p_tx t)) (map (fun e => hash (e_tx e)) (m_memPool p))).
  { unfold ContainsTransaction. rewrite existsb_exists, in_map_iff. split; intros (e & A & B); exists e.
    - apply tx_eqb_eq in B. auto.
    - split; [exact B|]. apply tx_eqb_eq, A. }
  assert (Bad : forall r', (Ret r', p) = (Ret r, p') -> r' <> ADDED -> p' = p /\ r <> ADDED) by (intros r' Z W; injection Z as <- <-; auto).
  destruct (match ty with MEMPOOL => ContainsTransaction Blake2b (m_memPool p) (p_tx t) | STEMPOOL => false end) eqn:E1.
  { destruct (Bad _ E ltac:(discriminate)) as (-> & N). split; [|split; [auto|split; intros Z; contradiction]]. split; [intros Z; contradiction|]. intros (A & _).
    destruct ty; [|discriminate]. exfalso. apply A; [reflexivity|]. apply Dup, E1. }
  assert (D1 : ty = MEMPOOL -> ~ In (hash (p_tx t)) (map (fun e => hash (e_tx e)) (m_memPool p))).
  { intros -> J. apply Dup in J. rewrite J in E1. discriminate. }
  destruct (FeeMeetsMinimum env fee_base (p_tx t) (h_height tip + 1)) as [[]| |]; try discriminate.
  2: { destruct (Bad _ E ltac:(discriminate)) as (-> & N). split; [|split; [auto|split; intros Z; contradiction]]. split; [intros Z; contradiction|]. intros (_ & A & _). discriminate A. }
  destruct (existsb _ (b_kernels (t_body (p_tx t)))) eqn:E2.
  { destruct (Bad _ E ltac:(discriminate)) as (-> & N). split; [|split; [auto|split; intros Z; contradiction]]. split; [intros Z; contradiction|]. intros (_ & _ & A & _).
    apply existsb_exists in E2 as (k & J & E2). rewrite Forall_forall in A. specialize (A k J). apply N.ltb_lt in E2. exfalso. lia. }
  assert (D2 : Forall (fun k => k_lockHeight k <= h_height tip + 1) (b_kernels (t_body (p_tx t)))).
  { apply Forall_forall. intros k J. apply N.nlt_ge. intros Z. apply not_true_iff_false in E2. apply E2, existsb_exists. exists k. split; [exact J|]. apply N.ltb_lt, Z. }
  destruct (Transaction_Validate _ _ _ _ _ _ _ _ _) as [[]| |]; try discriminate.
  2: { destruct (Bad _ E ltac:(discriminate)) as (-> & N). split; [|split; [auto|split; intros Z; contradiction]]. split; [intros Z; contradiction|]. intros (_ & _ & _ & A & _). discriminate A. }
  destruct (IsValid env d s (p_tx t)) as [[]| |]; try discriminate.
  2: { destruct (Bad _ E ltac:(discriminate)) as (-> & N). split; [|split; [auto|split; intros Z; contradiction]]. split; [intros Z; contradiction|]. intros (_ & _ & _ & _ & A). discriminate A. }
  injection E as <- <-. split; [split; [intros _; auto|reflexivity]|]. split; [intros Z; contradiction|].
  split; intros _ ->; cbn [m_memPool m_stemPool]; unfold Pool_AddTransaction.
  - split; [rewrite map_app; reflexivity|apply remove_incl].
  - split; [reflexivity|rewrite map_app; reflexivity].
Qed.

(** After a block, and until the next transaction comes in, the memory pool can be aggregated into one acceptable transaction ... *)
Theorem C32_after_block_partial d s flushed b p p' :
  ReconcileBlock d s flushed b p = (Ret tt, p') -> h_height flushed + 1 < W64 ->
  distinct_hashes hash (map e_tx (m_memPool p)) -> distinct_hashes hash (map e_tx (m_stemPool p)) ->
  m_memPool p' <> [] -> acceptable_together d s (h_height flushed + 1) (map e_tx (m_memPool p')).
Proof.
  intros E L U1 U2 Ne. destruct (reconcile_ok _ _ _ _ _ _ _ _ _ _ _ _ _ _ E U1 U2) as (_ & _ & _ & D & _). rewrite add64_small in D by exact L.
  apply each_whole; [exact D|]. destruct (m_memPool p'); [contradiction|discriminate].
Qed.
(** ... so every input from outside the pool is an unspent coin of the ledger, mature in the next block ... *)
Theorem C32_after_block_spends_ledger g l d s flushed b p p' t i :
  ReconcileBlock d s flushed b p = (Ret tt, p') -> h_height (m_pBlockHeader s) + 1 < W64 -> represents Blake2b g l s d -> room l ->
  distinct_hashes hash (map e_tx (m_memPool p)) -> distinct_hashes hash (map e_tx (m_stemPool p)) ->
  In t (map e_tx (m_memPool p')) -> In i (b_inputs (t_body t)) ->
  (exists t', In t' (map e_tx (m_memPool p')) /\ In (i_commitment i) (output_commitments (t_body t'))) \/
  (exists n c, nth_error (l_outs l) n = Some (c, true) /\ c_commitment c = i_commitment i /\ mature env c (h_height (m_pBlockHeader s) + 1)).
Proof.
  intros E L R Rm U1 U2 J Ji. destruct (reconcile_ok _ _ _ _ _ _ _ _ _ _ _ _ _ _ E U1 U2) as (_ & _ & _ & D & _).
  assert (Ne : map e_tx (m_memPool p') <> []) by (intros Z; rewrite Z in J; destruct J).
  destruct (each_whole _ _ _ _ _ _ _ _ _ _ _ _ D Ne) as (a & Ea & _ & Ok). destruct (aggregate_input _ _ _ _ _ _ Ea J Ji) as [K|K]; [right|left; exact K].
  apply (proj1 (C20_transaction_exact _ _ _ _ _ _ a R Rm L)) in Ok as (Ok & _). rewrite Forall_forall in Ok. destruct (Ok i K) as (n & c & _ & A & B & C). eauto.
Qed.
(** ... and no two of them are the same (if equal commitments come with equal feature bytes, and unless two inputs have the same hash). *)
Theorem C32_after_block_no_conflict d s flushed b p p' :
  (forall x, length (Blake2b x) = 32%nat /\ is_bytes (Blake2b x)) ->
  ReconcileBlock d s flushed b p = (Ret tt, p') ->
  distinct_hashes hash (map e_tx (m_memPool p)) -> distinct_hashes hash (map e_tx (m_stemPool p)) ->
  let ts := map e_tx (m_memPool p') in
  let inputs := flat_map (fun t => b_inputs (t_body t)) ts in
  (forall i j, In i inputs -> In j inputs -> i_commitment i = i_commitment j -> i_features i = i_features j) ->
  NoDup (filter (fun c => negb (existsb (fun o => bytes_eqb o c) (flat_map (fun t => output_commitments (t_body t)) ts))) (map i_commitment inputs)) \/ collision Blake2b.
Proof.
  intros HB E U1 U2 ts inputs HF. destruct (reconcile_ok _ _ _ _ _ _ _ _ _ _ _ _ _ _ E U1 U2) as (_ & _ & _ & D & _). fold ts in D.
  destruct ts as [|t1 ts'] eqn:Et; [left; constructor|]. destruct (each_whole _ _ _ _ _ _ _ _ _ _ _ _ D ltac:(discriminate)) as (a & Ea & Va & _).
  apply tx_validated in Va as (_ & Vb & _).
  assert (Fo : forall l, map o_commitment (flat_map (fun t => b_outputs (t_body t)) l) = flat_map (fun t => output_commitments (t_body t)) l).
  { induction l as [|x l IH]; [reflexivity|]. cbn [flat_map]. rewrite map_app, IH. reflexivity. }
  assert (Nf : forall (f : bytes -> bool) l, NoDup l -> NoDup (filter f l)) by (intros; apply NoDup_filter; assumption).
  destruct ts' as [|t2 ts'].
  - apply Ret_inj in Ea. subst a. destruct (C46_inputs_distinct_partial Blake2b VRP VKS (t_body t1) HB Vb) as [N|N]; [|left; apply Nf|right; exact N].
    + intros i j Ji Jj. apply HF; unfold inputs; cbn [flat_map]; rewrite app_nil_r; assumption.
    + unfold inputs. cbn [flat_map]. rewrite app_nil_r. exact N.
  - apply aggregate_many in Ea as (ins & outs & C & _ & P1 & _). destruct (C29_cut_through_removes_pairs _ _ _ _ C) as (K & _).
    destruct (C46_inputs_distinct_partial Blake2b VRP VKS (t_body a) HB Vb) as [N|N]; [|left|right; exact N].
    + intros i j Ji Jj. apply HF; [apply (Permutation_in _ (Permutation_sym P1)), K in Ji; apply Ji|apply (Permutation_in _ (Permutation_sym P1)), K in Jj; apply Jj].
    + apply cut_through_commitments in C as (C & _). rewrite Fo in C. fold inputs in C. unfold mem in C.
      rewrite <- C.
      apply (Permutation_NoDup (Permutation_map _ (Permutation_sym P1))). exact N.
Qed.

(** * C33. What is broadcast: an aggregate of stem transactions marked to be fluffed, one of stem transactions that could not be sent to
    the relay, or a stem transaction whose time is up. Missing: that the time is counted from when it came in ([C33_embargo_refuted]). *)
Theorem C33_broadcast_sources_partial e p out p' t :
  step e p = (Ret out, p') -> In (Broadcast t) out ->
  (exists w fresh es, e = PFluff w fresh /\ es <> [] /\ Forall (fun x => In x (m_stemPool p) /\ m_status x = TO_FLUFF) es /\ Aggregate Blake2b AddBF (map e_tx es) = Ret t) \/
  (exists w fresh es, e = PStem w true false fresh /\ es <> [] /\ Forall (fun x => In x (m_stemPool p) /\ m_status x = TO_STEM) es /\ Aggregate Blake2b AddBF (map e_tx es) = Ret t) \/
  (exists w now random x, e = PExpired w now random /\ In x (m_stemPool p) /\ e_tx x = t /\ (m_timestamp x + Z.of_N ((embargoSeconds + random) mod W16) < now)%Z).
Proof.
  assert (Es : forall st q (valid : list txptr), (forall t, In t valid -> exists e, In e (m_stemPool q) /\ e_ptr e = t /\ m_status e = st) ->
    exists es, map e_ptr es = valid /\ Forall (fun x => In x (m_stemPool q) /\ m_status x = st) es).
  { intros st q. induction valid as [|x valid IH]; intros A; [exists []; split; [reflexivity|constructor]|]. destruct (A x (or_introl eq_refl)) as (e0 & B & C & D).
    destruct (IH (fun y J => A y (or_intror J))) as (es & F & G). exists (e0 :: es). cbn [map]. rewrite C, F. split; [reflexivity|]. constructor; auto. }
  assert (Em : forall es, map e_tx es = map p_tx (map e_ptr es)) by (intros; rewrite map_map; reflexivity).
  destruct e; cbn [pool_step]; intros E J.
  - destruct (AddTransaction d set t0 ty lastConfirmed random p) as (r, q). injection E as E _. destruct r; try discriminate. cbn [obind] in E. apply Ret_inj in E. subst out. destruct J.
  - destruct (ReconcileBlock d s flushed b p) as (r, q). injection E as E _. destruct r; try discriminate. cbn [obind] in E. apply Ret_inj in E. subst out. destruct J.
  - right. left. unfold ProcessStemPhase in E. destruct relay; cbn [negb] in E; [|injection E as <- <-; destruct J]. destruct (w_set w) as [s|]; [|injection E as <- <-; destruct J].
    unfold GetTransactionToStem in E. destruct (select _ _ _ _ _ _ _ _ _ _ _ _ _ p) as [(valid, [a|])| |] eqn:Se; try discriminate; [|injection E as <- <-; destruct J].
    destruct success; [injection E as <- <-; destruct J as [J|[]]; discriminate J|]. destruct (Chain_AddTransaction _ _ _ _ _ _ _ _ _ _ _ _ _ _) as ([[]| |], q); try discriminate; injection E as <- <-; [|destruct J].
    destruct J as [J|[]]. injection J as <-. destruct (select_ok _ _ _ _ _ _ _ _ _ _ _ _ _ _ _ _ Se) as (A & B & C). destruct (Es _ _ _ B) as (es & F & G).
    exists w, fresh, es. split; [reflexivity|]. split; [intros ->; apply A; symmetry; exact F|]. split; [exact G|]. rewrite Em, F. exact C.
  - left. unfold ProcessFluffPhase in E. destruct (w_set w) as [s|]; [|injection E as <- <-; destruct J].
    unfold GetTransactionToFluff in E. destruct (select _ _ _ _ _ _ _ _ _ _ _ _ _ p) as [(valid, [a|])| |] eqn:Se; try discriminate; [|injection E as <- <-; destruct J].
    injection E as <- <-. destruct J as [J|[]]. injection J as <-. destruct (select_ok _ _ _ _ _ _ _ _ _ _ _ _ _ _ _ _ Se) as (A & B & C). destruct (Es _ _ _ B) as (es & F & G).
    exists w, fresh, es. split; [reflexivity|]. split; [intros ->; apply A; symmetry; exact F|]. split; [exact G|]. rewrite Em, F. exact C.
  - right. right. exists w, now, random. unfold ProcessExpiredEntries in E.
    assert (K : forall ts q out q', add_expired Blake2b VRP VKS AddC CT CB env fee_base stemProbability w ts q = (Ret out, q') -> In (Broadcast t) out -> In t (map p_tx ts)).
    { clear. induction ts as [|x ts IH]; intros q out q' E J; cbn [add_expired] in E; [injection E as <- <-; destruct J|].
      destruct (Chain_AddTransaction _ _ _ _ _ _ _ _ _ _ _ _ _ _) as ([ok| |], q1); try discriminate. destruct (add_expired _ _ _ _ _ _ _ _ _ w ts q1) as ([o| |], q2) eqn:A; try discriminate.
      injection E as <- <-. destruct ok; [|right; exact (IH _ _ _ A J)]. destruct J as [J|J]; [injection J as <-; left; reflexivity|right; exact (IH _ _ _ A J)]. }
    specialize (K _ _ _ _ E J). unfold GetExpiredTransactions, Pool_GetExpiredTransactions in K. rewrite map_map in K. apply in_map_iff in K as (x & Ex & K).
    apply filter_In in K as (K1 & K2). exists x. split; [reflexivity|]. split; [exact K1|]. split; [exact Ex|]. apply Z.ltb_lt in K2. lia.
Qed.
(** What is sent to the relay: an aggregate of stem transactions waiting to be stemmed, each of which is marked as stemmed, so that no later
    step selects it again; neither pool gains or loses a transaction. *)
Theorem C33_relayed_once e p out p' t :
  step e p = (Ret out, p') -> In (ToRelay t) out ->
  exists es, es <> [] /\ Forall (fun x => In x (m_stemPool p) /\ m_status x = TO_STEM) es /\ Aggregate Blake2b AddBF (map e_tx es) = Ret t /\
    m_memPool p' = m_memPool p /\ map e_ptr (m_stemPool p') = map e_ptr (m_stemPool p) /\
    (forall x, In x (m_stemPool p') -> In (e_ptr x) (map e_ptr es) -> m_status x = STEMMED).
Proof.
  intros E J. destruct e; cbn [pool_step] in E.
  - destruct (AddTransaction d set t0 ty lastConfirmed random p) as (r, q). injection E as E _. destruct r; try discriminate. cbn [obind] in E. apply Ret_inj in E. subst out. destruct J.
  - destruct (ReconcileBlock d s flushed b p) as (r, q). injection E as E _. destruct r; try discriminate. cbn [obind] in E. apply Ret_inj in E. subst out. destruct J.
  - unfold ProcessStemPhase in E. destruct relay; cbn [negb] in E; [|injection E as <- <-; destruct J]. destruct (w_set w) as [s|]; [|injection E as <- <-; destruct J].
    unfold GetTransactionToStem in E. destruct (select _ _ _ _ _ _ _ _ _ _ _ _ _ p) as [(valid, [a|])| |] eqn:Se; try discriminate; [|injection E as <- <-; destruct J].
    destruct success; [|destruct (Chain_AddTransaction _ _ _ _ _ _ _ _ _ _ _ _ _ _) as ([[]| |], q); try discriminate; injection E as <- <-; [destruct J as [J|[]]; discriminate J|destruct J]].
    injection E as <- <-. destruct J as [J|[]]. injection J as <-. destruct (select_ok _ _ _ _ _ _ _ _ _ _ _ _ _ _ _ _ Se) as (A & B & C).
    assert (K : exists es, map e_ptr es = valid /\ Forall (fun x => In x (m_stemPool p) /\ m_status x = TO_STEM) es).
    { clear - B. induction valid as [|x valid IH]; [exists []; split; [reflexivity|constructor]|]. destruct (B x (or_introl eq_refl)) as (e0 & B1 & B2 & B3).
      destruct (IH (fun y Y => B y (or_intror Y))) as (es & F & G). exists (e0 :: es). cbn [map]. rewrite B2, F. split; [reflexivity|]. constructor; auto. }
    destruct K as (es & F & G). exists es. split; [intros ->; apply A; symmetry; exact F|]. split; [exact G|].
    split; [replace (map e_tx es) with (map p_tx (map e_ptr es)) by (rewrite map_map; reflexivity); rewrite F; exact C|]. split; [reflexivity|]. cbn [m_stemPool]. unfold ChangeStatus. split.
    + rewrite map_map. apply map_ext. intros x. destruct (existsb _ valid); reflexivity.
    + intros x X Y. apply in_map_iff in X as (y & <- & X). rewrite F in Y. destruct (existsb _ valid) eqn:Z; [reflexivity|]. exfalso. apply not_true_iff_false in Z. apply Z, existsb_exists.
      exists (e_ptr y). split; [exact Y|apply N.eqb_refl].
  - unfold ProcessFluffPhase in E. destruct (w_set w) as [s|]; [|injection E as <- <-; destruct J].
    destruct (GetTransactionToFluff _ _ _ _ _ _ _ _ _ _ _ _ p) as ([[a|]| |], q); try discriminate; injection E as <- <-; [destruct J as [J|[]]; discriminate J|destruct J].
  - exfalso. unfold ProcessExpiredEntries in E. revert E J. generalize (GetExpiredTransactions embargoSeconds p now random) as ts. intros ts. revert p out p'.
    induction ts as [|x ts IH]; intros q out q' E J; cbn [add_expired] in E; [injection E as <- <-; destruct J|].
    destruct (Chain_AddTransaction _ _ _ _ _ _ _ _ _ _ _ _ _ _) as ([ok| |], q1); try discriminate. destruct (add_expired _ _ _ _ _ _ _ _ _ w ts q1) as ([o| |], q2) eqn:A; try discriminate.
    injection E as <- <-. destruct ok; [|exact (IH _ _ _ A J)]. destruct J as [J|J]; [discriminate J|exact (IH _ _ _ A J)].
Qed.
(** Coming in by itself publishes nothing: a stem transaction enters only the stem pool. *)
Theorem C33_stem_is_quiet d set t tip random p r p' :
  AddTransaction d set t STEMPOOL tip random p = (r, p') ->
  m_memPool p' = m_memPool p /\ (p' = p \/ exists st, m_stemPool p' = m_stemPool p ++ [mkEntry t st 0%Z] /\ (st = TO_FLUFF <-> stemProbability < random) /\ (st = TO_STEM \/ st = TO_FLUFF)).
Proof.
  unfold PoolModel.AddTransaction. intros E. cbv iota in E.
  repeat match type of E with (if ?c then _ else _) = _ => destruct c | match ?c with _ => _ end = _ => destruct c end; injection E as <- <-; auto.
  cbn [m_memPool m_stemPool]. split; [reflexivity|]. right. destruct (random <=? stemProbability) eqn:Z; [exists TO_STEM|exists TO_FLUFF]; (split; [reflexivity|]); split; auto.
  - apply N.leb_le in Z. split; [discriminate|lia].
  - apply N.leb_gt in Z. split; auto.
Qed.
(** In every state the pools can get into, at every time since 1970 (plus the interval), every stem transaction counts as expired: the
    embargo has no effect. *)
Theorem C33_always_expired p now random :
  reached p -> (Z.of_N ((embargoSeconds + random) mod W16) < now)%Z ->
  GetExpiredTransactions embargoSeconds p now random = map e_ptr (m_stemPool p).
Proof.
  intros R L. destruct (reached_untimed _ _ _ _ _ _ _ _ _ _ _ _ R) as (_ & U). unfold GetExpiredTransactions, Pool_GetExpiredTransactions. f_equal.
  induction (m_stemPool p) as [|e l IH]; [reflexivity|]. inversion_clear U as [|? ? U1 U2]. cbn [filter]. rewrite U1.
  replace (0 <? now - Z.of_N ((embargoSeconds + random) mod W16))%Z with true by (symmetry; apply Z.ltb_lt; lia). rewrite IH by exact U2. reflexivity.
Qed.
End Props.

(** * A concrete pool: a chain of one block with three coins, the ideal commitments of ValidationProps.v. *)
Definition pool_genesis : FullBlock := mkBlock (UtxoProps.ex_header 0 0 1 1 1) (mkBody [] [mkOutput 1 (ValidationProps.coin 60000000000) []] [mkKernel 1 (mkFee 0 0) 0 zero33 []]).
Definition pool_b1 : FullBlock := mkBlock (UtxoProps.ex_header 1 1 2 7 3) (mkBody [] (map (fun v => mkOutput 0 (ValidationProps.coin v) []) [100; 200; 300]) [mkKernel 0 (mkFee 0 1) 0 zero33 []]).
Definition pool_s0 : txhashset := match Open_fresh ValidationProps.toy_hash pool_genesis with Ret s => s | _ => nothing end.
Definition pool_apply (b : FullBlock) (x : txhashset * blockdb) : txhashset * blockdb :=
  match ApplyBlock ValidationProps.toy_hash AUTOMATED_TESTING (snd x) b (fst x) with Ret (Some (s, d)) => (s, store_block b (mkSums [] []) d) | _ => x end.
Definition px1 : txhashset * blockdb := pool_apply pool_b1 (pool_s0, mkDB [] [(hs 1, fb_header pool_genesis)] [] [] []).
Definition ptx (i o : list N) (fee : N) : Transaction :=
  mkTx (repeat 0 32) (mkBody (map (fun v => mkInput 0 (ValidationProps.coin v)) i) (map (fun v => mkOutput 0 (ValidationProps.coin v) []) o) [mkKernel 0 (mkFee 0 fee) 0 zero33 []]).
Definition toy_offsets (_ _ : list bytes) : outcome bytes := Ret (repeat 0 32).
Definition padd d s t ty p := AddTransaction ValidationProps.toy_hash ideal_range ideal_signed ideal_add ValidationProps.coin ideal_blinded AUTOMATED_TESTING 1 90 d (Some s) t ty (fb_header pool_b1) 50 p.
Definition pt1 : txptr := mkPtr 1 (ptx [100] [10] 90).
Definition pt2 : txptr := mkPtr 2 (ptx [100] [20] 80).
Definition pt3 : txptr := mkPtr 3 (ptx [200] [30] 170).
Definition pt4 : txptr := mkPtr 4 (ptx [300] [40] 260).
Definition pool_of (ts : list (txptr * EPoolType)) : txpool := fold_left (fun p t => snd (padd (snd px1) (fst px1) (fst t) (snd t) p)) ts (mkPool [] []).

(** Two transactions that spend the same coin are both admitted to the memory pool; no block can contain both, and the pool has no
    acceptable aggregate. *)
Theorem C32_conflict_refuted : exists d s t1 t2 p1 p2,
  padd d s t1 MEMPOOL (mkPool [] []) = (Ret ADDED, p1) /\ padd d s t2 MEMPOOL p1 = (Ret ADDED, p2) /\
  map e_tx (m_memPool p2) = [p_tx t1; p_tx t2] /\ b_inputs (t_body (p_tx t1)) = b_inputs (t_body (p_tx t2)) /\
  ~ acceptable_together ValidationProps.toy_hash ideal_range ideal_signed ideal_add ValidationProps.coin ideal_blinded toy_offsets AUTOMATED_TESTING d s 2 (map e_tx (m_memPool p2)).
Proof.
  exists (snd px1), (fst px1), pt1, pt2, (pool_of [(pt1, MEMPOOL)]), (pool_of [(pt1, MEMPOOL); (pt2, MEMPOOL)]).
  split; [vm_compute; reflexivity|]. split; [vm_compute; reflexivity|]. split; [vm_compute; reflexivity|]. split; [reflexivity|].
  intros (a & Ea & V & _). assert (E2 : map e_tx (m_memPool (pool_of [(pt1, MEMPOOL); (pt2, MEMPOOL)])) = [p_tx pt1; p_tx pt2]) by (vm_compute; reflexivity). rewrite E2 in Ea. clear E2.
  assert (F : forall x, Aggregate ValidationProps.toy_hash toy_offsets [p_tx pt1; p_tx pt2] = Ret x ->
    Transaction_Validate ValidationProps.toy_hash ideal_range ideal_signed ideal_add ValidationProps.coin ideal_blinded AUTOMATED_TESTING x 2 <> Ret tt).
  { intros x Ex. vm_compute in Ex. injection Ex as <-. vm_compute. discriminate. }
  exact (F a Ea V).
Qed.
(** Spending the same coin under two feature bytes passes even the check that is made after a block. *)
Definition pt5 : txptr := mkPtr 5 (mkTx (repeat 0 32) (mkBody [mkInput 1 (ValidationProps.coin 100)] [mkOutput 0 (ValidationProps.coin 20) []] [mkKernel 0 (mkFee 0 80) 0 zero33 []])).
Definition preconcile d s flushed b p := ReconcileBlock ValidationProps.toy_hash ideal_range ideal_signed ideal_add ValidationProps.coin ideal_blinded toy_offsets AUTOMATED_TESTING d s flushed b p.
Theorem C32_conflict_after_block_refuted : exists d s flushed b p t1 t2,
  preconcile d s flushed b p = (Ret tt, p) /\ map e_tx (m_memPool p) = [t1; t2] /\ t1 <> t2 /\
  input_commitments (t_body t1) = input_commitments (t_body t2).
Proof.
  exists (snd px1), (fst px1), (fb_header pool_genesis), pool_genesis, (pool_of [(pt1, MEMPOOL); (pt5, MEMPOOL)]), (p_tx pt1), (p_tx pt5).
  split; [vm_compute; reflexivity|]. split; [vm_compute; reflexivity|]. split; [discriminate|reflexivity].
Qed.

(** A stem transaction is broadcast at the very moment it came in. *)
Definition pworld : world := mkWorld (snd px1) (Some (fst px1)) (fb_header pool_b1) (Some (fb_header pool_b1)).
Definition pstep := pool_step ValidationProps.toy_hash ideal_range ideal_signed ideal_add ValidationProps.coin ideal_blinded toy_offsets AUTOMATED_TESTING 1 90 180.
Theorem C33_embargo_refuted : exists w t now p1 p2,
  pstep (PAdd (w_db w) (w_set w) t STEMPOOL (fb_header pool_b1) 50) (mkPool [] []) = (Ret [], p1) /\ map m_status (m_stemPool p1) = [TO_STEM] /\
  now = 1700000000%Z /\ (* the same second *) pstep (PExpired w now 0) p1 = (Ret [Broadcast (p_tx t)], p2) /\ map e_tx (m_memPool p2) = [p_tx t].
Proof.
  exists pworld, pt1, 1700000000%Z, (pool_of [(pt1, STEMPOOL)]), (snd (pstep (PExpired pworld 1700000000 0) (pool_of [(pt1, STEMPOOL)]))).
  split; [vm_compute; reflexivity|]. split; [vm_compute; reflexivity|]. split; [reflexivity|]. split; vm_compute; reflexivity.
Qed.
(** A stem transaction is given to any peer that asks for its kernel hash (MessageProcessor.cpp:327-339). *)
Theorem C33_request_refuted : exists p t h, m_memPool p = [] /\ map m_status (m_stemPool p) = [TO_STEM] /\
  p = pool_of [(t, STEMPOOL)] /\ FindTransactionByKernelHash ValidationProps.toy_hash p h = Some t.
Proof.
  exists (pool_of [(pt1, STEMPOOL)]), pt1, (kernel_hash ValidationProps.toy_hash (mkKernel 0 (mkFee 0 90) 0 zero33 [])).
  split; [vm_compute; reflexivity|]. split; [vm_compute; reflexivity|]. split; vm_compute; reflexivity.
Qed.

(** Reconciliation with a block that spends coin 100 (and creates 90): what spends it is gone, the others stay, in both pools. *)
Definition pool_b2 : FullBlock := mkBlock (UtxoProps.ex_header 2 2 3 8 4) (mkBody [mkInput 0 (ValidationProps.coin 100)] [mkOutput 0 (ValidationProps.coin 90) []] [mkKernel 0 (mkFee 0 10) 0 zero33 []]).
Definition px2 : txhashset * blockdb := pool_apply pool_b2 px1.
Definition pool_full : txpool := pool_of [(pt1, MEMPOOL); (pt3, MEMPOOL); (pt2, STEMPOOL); (pt4, STEMPOOL)].
Lemma distinct_check H l : forallb (fun t => forallb (fun t' => negb (bytes_eqb (tx_hash H t) (tx_hash H t')) || (be_value (t_offset t) =? be_value (t_offset t')) && (CalcFee (t_body t) =? CalcFee (t_body t'))) l) l = true ->
  (forall t t', In t l -> In t' l -> CalcFee (t_body t) = CalcFee (t_body t') -> t = t') -> distinct_hashes (tx_hash H) l.
Proof.
  intros E D t t' J J' Eq. apply D; try assumption. rewrite forallb_forall in E. specialize (E t J). rewrite forallb_forall in E. specialize (E t' J'). rewrite Eq, bytes_eqb_refl in E.
  cbn [negb orb] in E. apply andb_true_iff in E as (_ & E). apply N.eqb_eq, E.
Qed.
Example C31_example : exists p', preconcile (snd px2) (fst px2) (fb_header pool_b1) pool_b2 pool_full = (Ret tt, p') /\
  map e_ptr (m_memPool p') = [pt3] /\ map e_ptr (m_stemPool p') = [pt4] /\
  distinct_hashes (tx_hash ValidationProps.toy_hash) (map e_tx (m_memPool pool_full)) /\ distinct_hashes (tx_hash ValidationProps.toy_hash) (map e_tx (m_stemPool pool_full)) /\
  acceptable_together ValidationProps.toy_hash ideal_range ideal_signed ideal_add ValidationProps.coin ideal_blinded toy_offsets AUTOMATED_TESTING (snd px2) (fst px2) 2 [p_tx pt3; p_tx pt4].
Proof.
  assert (M : map e_tx (m_memPool pool_full) = [p_tx pt1; p_tx pt3]) by (vm_compute; reflexivity).
  assert (S : map e_tx (m_stemPool pool_full) = [p_tx pt2; p_tx pt4]) by (vm_compute; reflexivity).
  exists (snd (preconcile (snd px2) (fst px2) (fb_header pool_b1) pool_b2 pool_full)). split; [vm_compute; reflexivity|]. split; [vm_compute; reflexivity|]. split; [vm_compute; reflexivity|].
  rewrite M, S. split; [|split].
  - apply distinct_check; [vm_compute; reflexivity|]. intros t t' [<-|[<-|[]]] [<-|[<-|[]]]; intros Eq; first [reflexivity|vm_compute in Eq; discriminate Eq].
  - apply distinct_check; [vm_compute; reflexivity|]. intros t t' [<-|[<-|[]]] [<-|[<-|[]]]; intros Eq; first [reflexivity|vm_compute in Eq; discriminate Eq].
  - exists (match Aggregate ValidationProps.toy_hash toy_offsets [p_tx pt3; p_tx pt4] with Ret a => a | _ => p_tx pt3 end).
    split; [vm_compute; reflexivity|]. split; vm_compute; reflexivity.
Qed.
(** The survivors are checked for the height of the block itself: on the way to a hard fork that changes the weights, a transaction that no
    further block can contain is admitted, and stays. *)
Definition numbers (n : nat) : list N := map N.of_nat (seq 1 n).
Definition heavy : txptr := mkPtr 6 (ptx [2000000] (numbers 1904) (2000000 - fold_left N.add (numbers 1904) 0)).
Definition old_block (height own osize ksize : N) (outs : list N) : FullBlock :=
  mkBlock (UtxoProps.ex_header height (own - 1) own osize ksize) (mkBody [] (map (fun v => mkOutput 0 (ValidationProps.coin v) []) outs) [mkKernel 0 (mkFee 0 1) 0 zero33 (repeat 7 64)]).
Definition tail_hash (x : bytes) : bytes := skipn (length x - 32) x.
Definition tail_apply (b : FullBlock) (x : txhashset * blockdb) : txhashset * blockdb :=
  match ApplyBlock tail_hash AUTOMATED_TESTING (snd x) b (fst x) with Ret (Some (s, d)) => (s, store_block b (mkSums [] []) d) | _ => x end.
Definition tail_s0 : txhashset := match Open_fresh tail_hash pool_genesis with Ret s => s | _ => nothing end.
Definition old_b1 : FullBlock := old_block 1048318 2 3 3 [2000000].
Definition old_b2 : FullBlock := old_block 1048319 3 4 4 [2000001].
Definition px10 : txhashset * blockdb := tail_apply old_b1 (tail_s0, mkDB [] [(hs 1, fb_header pool_genesis)] [] [] []).
Definition px11 : txhashset * blockdb := tail_apply old_b2 px10.
Definition padd10 p := AddTransaction tail_hash ideal_range ideal_signed ideal_add ValidationProps.coin ideal_blinded AUTOMATED_TESTING 1 90
  (snd px10) (Some (fst px10)) heavy MEMPOOL (fb_header old_b1) 0 p.
Theorem C31_next_height_refuted : exists d s flushed b p t,
  padd10 (mkPool [] []) = (Ret ADDED, p) /\ flushed = m_pBlockHeader (fst px10) /\ h_height (fb_header b) = h_height flushed + 1 /\ m_pBlockHeader s = fb_header b /\
  ReconcileBlock tail_hash ideal_range ideal_signed ideal_add ValidationProps.coin ideal_blinded toy_offsets AUTOMATED_TESTING d s flushed b p = (Ret tt, p) /\ map e_tx (m_memPool p) = [t] /\
  Transaction_Validate tail_hash ideal_range ideal_signed ideal_add ValidationProps.coin ideal_blinded AUTOMATED_TESTING t (h_height (fb_header b) + 1) = Throw.
Proof.
  exists (snd px11), (fst px11), (m_pBlockHeader (fst px10)), old_b2, (snd (padd10 (mkPool [] []))), (p_tx heavy).
  split; [vm_compute; reflexivity|]. split; [reflexivity|]. split; [vm_compute; reflexivity|]. split; [vm_compute; reflexivity|]. split; [vm_compute; reflexivity|]. split; vm_compute; reflexivity.
Qed.

(** The monitor: a transaction to be stemmed goes to the relay only; one to be fluffed goes to everybody. *)
Example C33_example : exists p1 p2,
  pstep (PAdd (w_db pworld) (w_set pworld) pt3 STEMPOOL (fb_header pool_b1) 95) (pool_of [(pt1, STEMPOOL)]) = (Ret [], p1) /\
  map m_status (m_stemPool p1) = [TO_STEM; TO_FLUFF] /\
  pstep (PStem pworld true true 9) p1 = (Ret [ToRelay (p_tx pt1)], p2) /\ map m_status (m_stemPool p2) = [STEMMED; TO_FLUFF] /\
  fst (pstep (PFluff pworld 9) p2) = Ret [Broadcast (p_tx pt3)].
Proof.
  exists (snd (pstep (PAdd (w_db pworld) (w_set pworld) pt3 STEMPOOL (fb_header pool_b1) 95) (pool_of [(pt1, STEMPOOL)]))).
  exists (snd (pstep (PStem pworld true true 9) (snd (pstep (PAdd (w_db pworld) (w_set pworld) pt3 STEMPOOL (fb_header pool_b1) 95) (pool_of [(pt1, STEMPOOL)]))))).
  split; [vm_compute; reflexivity|]. split; [vm_compute; reflexivity|]. split; [vm_compute; reflexivity|]. split; vm_compute; reflexivity.
Qed.

Definition pool_theorems := (@C31_reconciled_partial, @C31_nothing_lost, @C31_evicted_shares, @C31_spent_inputs_gone, C31_next_height_refuted, @C32_admission_exact, @C32_after_block_partial,
  @C32_after_block_spends_ledger, @C32_after_block_no_conflict, C32_conflict_refuted, C32_conflict_after_block_refuted, @C33_broadcast_sources_partial, @C33_stem_is_quiet, @C33_relayed_once,
  @C33_always_expired, C33_embargo_refuted, C33_request_refuted).
Print Assumptions pool_theorems.
