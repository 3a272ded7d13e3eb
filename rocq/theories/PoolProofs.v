(** Proofs for C31, C32 and C33. *)
From Coq Require Import Permutation.
From Verif Require Import Base Bytes FileModel CodecModel CodecProofs ConsensusModel ValidationModel ValidationSpec ValidationProofs UtxoModel PoolModel PoolSpec.
Local Open Scope N_scope.

Section Proofs.
Variable Blake2b : bytes -> bytes.
Variable VRP : list (bytes * bytes) -> bool.
Variable VKS : list bytes -> list bytes -> list bytes -> bool.
Variable AddC : list bytes -> list bytes -> outcome bytes.
Variable CT : N -> bytes.
Variable CB : N -> bytes -> bytes.
Variable AddBF : list bytes -> list bytes -> outcome bytes.
Variable env : Environment.
Notation acceptable := (acceptable Blake2b VRP VKS AddC CT CB env).
Notation acceptable_together := (acceptable_together Blake2b VRP VKS AddC CT CB AddBF env).
Notation each_with_earlier := (each_with_earlier Blake2b VRP VKS AddC CT CB AddBF env).
Notation FindValid := (FindValid Blake2b VRP VKS AddC CT CB AddBF env).
Notation IsValidTransaction := (IsValidTransaction Blake2b VRP VKS AddC CT CB env).
Notation Pool_ReconcileBlock := (Pool_ReconcileBlock Blake2b VRP VKS AddC CT CB AddBF env).
Notation ReconcileBlock := (ReconcileBlock Blake2b VRP VKS AddC CT CB AddBF env).
Notation Pool_Aggregate := (Pool_Aggregate Blake2b AddBF).
Notation hash := (tx_hash Blake2b).

Lemma is_valid_ok d s f t : IsValidTransaction d s f t = Ret true <-> acceptable d s (add64 (h_height f) 1) t.
Proof.
  unfold PoolModel.IsValidTransaction, PoolSpec.acceptable, Validate. destruct (Transaction_Validate _ _ _ _ _ _ _ t _) as [[]| |]; cbn [obind].
  - destruct (IsValid env d s t) as [[]| |]; split; try discriminate; try tauto; intros (_ & A); discriminate A.
  - split; [discriminate|intros (A & _); discriminate A].
  - split; [discriminate|intros (A & _); discriminate A].
Qed.

Definition others (extra : option Transaction) : list Transaction := match extra with Some x => [x] | None => [] end.
Inductive sublist {A} : list A -> list A -> Prop :=
| sub_nil : sublist [] []
| sub_skip x l l' : sublist l l' -> sublist l (x :: l')
| sub_keep x l l' : sublist l l' -> sublist (x :: l) (x :: l').
Lemma sublist_incl {A} (l l' : list A) : sublist l l' -> incl l l'.
Proof. induction 1; intros y J; [destruct J|right; apply IHsublist, J|]. destruct J as [<-|J]; [left; reflexivity|right; apply IHsublist, J]. Qed.

Lemma snoc_split {A} (l : list A) x before t after : l ++ [x] = before ++ t :: after ->
  (exists after', l = before ++ t :: after') \/ (l = before /\ t = x).
Proof.
  intros E. destruct (rev after) as [|y r] eqn:R.
  - right. assert (after = []) by (rewrite <- (rev_involutive after), R; reflexivity). subst after. apply app_inj_tail in E as (-> & ->). auto.
  - left. assert (Ea : after = rev r ++ [y]) by (rewrite <- (rev_involutive after), R; reflexivity). subst after.
    rewrite app_comm_cons, app_assoc in E. apply app_inj_tail in E as (-> & _). eauto.
Qed.
Lemma each_snoc d s h o ts t : each_with_earlier d s h o ts -> acceptable_together d s h (ts ++ o ++ [t]) -> each_with_earlier d s h o (ts ++ [t]).
Proof. intros A B before x after E. destruct (snoc_split _ _ _ _ _ E) as [(after' & E')|(<- & ->)]; [exact (A _ _ _ E')|exact B]. Qed.
Lemma each_nil d s h o : each_with_earlier d s h o [].
Proof. intros before x after E. destruct before; discriminate. Qed.

Lemma find_valid_ok d s f extra : forall ts valid r, FindValid d s f extra valid ts = Ret r ->
  each_with_earlier d s (add64 (h_height f) 1) (others extra) (map p_tx valid) ->
  each_with_earlier d s (add64 (h_height f) 1) (others extra) (map p_tx r) /\ exists kept, r = valid ++ kept /\ sublist kept ts.
Proof.
  induction ts as [|t ts IH]; intros valid r E V; cbn [PoolModel.FindValid] in E.
  - apply Ret_inj in E. subst r. split; [exact V|]. exists []. rewrite app_nil_r. split; [reflexivity|constructor].
  - fold (others extra) in E. destruct (Aggregate_txs Blake2b AddBF _) as [a| |] eqn:Ea; try discriminate. cbn [obind] in E.
    destruct (IsValidTransaction d s f a) as [ok| |] eqn:Ei; try discriminate. cbn [obind] in E. destruct ok.
    + destruct (IH _ _ E) as (A & kept & Er & Sb).
      * rewrite map_app. cbn [map]. apply each_snoc; [exact V|]. exists a. split; [exact Ea|]. apply is_valid_ok, Ei.
      * split; [exact A|]. exists (t :: kept). rewrite Er, <- app_assoc. split; [reflexivity|constructor; exact Sb].
    + destruct (IH _ _ E V) as (A & kept & Er & Sb). split; [exact A|]. exists kept. split; [exact Er|constructor; exact Sb].
Qed.
(** Nothing is dropped without need. *)
Lemma find_valid_all d s f extra : forall ts valid,
  (forall before t after, ts = before ++ t :: after -> acceptable_together d s (add64 (h_height f) 1) (map p_tx (valid ++ before) ++ others extra ++ [p_tx t])) ->
  FindValid d s f extra valid ts = Ret (valid ++ ts).
Proof.
  induction ts as [|t ts IH]; intros valid A; cbn [PoolModel.FindValid]; [rewrite app_nil_r; reflexivity|]. fold (others extra).
  destruct (A [] t ts eq_refl) as (a & Ea & Ok). rewrite app_nil_r in Ea. unfold Aggregate_txs. rewrite Ea. cbn [obind].
  rewrite (proj2 (is_valid_ok d s f a) Ok). cbn [obind]. rewrite IH; [rewrite <- app_assoc; reflexivity|].
  intros before x after ->. rewrite <- app_assoc. apply (A (t :: before) x after eq_refl).
Qed.

Lemma tx_eqb_eq a b : tx_eqb Blake2b a b = true <-> hash a = hash b.
Proof. unfold tx_eqb. apply bytes_eqb_spec. Qed.
Lemma entries_ok filtered : distinct_hashes hash (map e_tx filtered) -> forall ts es, entries_at Blake2b filtered ts = Ret es -> incl ts (map e_ptr filtered) ->
  map e_tx es = map p_tx ts /\ incl es filtered.
Proof.
  intros U. induction ts as [|t ts IH]; intros es E I; cbn [entries_at] in E; [apply Ret_inj in E; subst es; split; [reflexivity|intros x []]|].
  destruct (find _ filtered) as [e|] eqn:F; [|discriminate]. destruct (entries_at Blake2b filtered ts) as [es'| |]; try discriminate. cbn [obind] in E. apply Ret_inj in E. subst es.
  destruct (IH es' eq_refl (fun x J => I x (or_intror J))) as (A & B). apply find_some in F as (F1 & F2). apply tx_eqb_eq in F2. split.
  - cbn [map]. rewrite A. f_equal. apply U; [apply in_map, F1| |exact F2]. specialize (I t (or_introl eq_refl)). apply in_map_iff in I as (e' & <- & J). apply (in_map e_tx) in J. exact J.
  - intros x [<-|J]; [exact F1|exact (B x J)].
Qed.
Lemma entries_total filtered : forall ts, incl ts (map e_ptr filtered) -> exists es, entries_at Blake2b filtered ts = Ret es.
Proof.
  induction ts as [|t ts IH]; intros I; cbn [entries_at]; [eauto|]. destruct (IH (fun x J => I x (or_intror J))) as (es & ->).
  destruct (find _ filtered) as [e|] eqn:F; [cbn [obind]; eauto|]. exfalso. specialize (I t (or_introl eq_refl)). apply in_map_iff in I as (e & <- & J).
  pose proof (find_none _ _ F e J) as K. cbn in K. apply not_true_iff_false in K. apply K, tx_eqb_eq. reflexivity.
Qed.

Lemma evict_ok t b : ShouldEvict Blake2b t b = false -> shares_nothing b t.
Proof.
  unfold ShouldEvict. intros E. apply orb_false_iff in E as (E1 & E2). split.
  - intros i J K. apply not_true_iff_false in E1. apply E1, existsb_exists. exists i. split; [exact J|]. apply existsb_exists. exists i. split; [exact K|].
    unfold input_eqb. rewrite N.eqb_refl, bytes_eqb_refl. reflexivity.
  - intros k J K. apply not_true_iff_false in E2. apply E2, existsb_exists. exists k. split; [exact J|]. apply existsb_exists. exists k. split; [exact K|]. apply bytes_eqb_refl.
Qed.

Lemma pool_reconcile_ok d s f b extra p p' : Pool_ReconcileBlock d s f b extra p = Ret p' -> distinct_hashes hash (map e_tx p) ->
  incl p' p /\ Forall (shares_nothing b) (map e_tx p') /\ each_with_earlier d s (add64 (h_height f) 1) (others extra) (map e_tx p').
Proof.
  unfold PoolModel.Pool_ReconcileBlock, FindValidTransactions. intros E U. set (filtered := filter _ p) in E.
  assert (I : incl filtered p) by (intros x J; apply filter_In in J; apply J).
  destruct (FindValid d s f extra [] (map e_ptr filtered)) as [valid| |] eqn:Ev; try discriminate. cbn [obind] in E.
  destruct (find_valid_ok _ _ _ _ _ _ _ Ev (each_nil _ _ _ _)) as (V & kept & -> & Sb). cbn [app] in *.
  assert (U' : distinct_hashes hash (map e_tx filtered)).
  { intros t t' J J'. apply U; [apply in_map_iff in J as (e & <- & J)|apply in_map_iff in J' as (e & <- & J')]; apply in_map, I; assumption. }
  destruct (entries_ok filtered U' kept p' E (sublist_incl _ _ Sb)) as (A & B). split; [intros x J; apply I, B, J|]. split.
  - apply Forall_forall. intros t J. apply in_map_iff in J as (e & <- & J). apply B, filter_In in J as (_ & J). apply evict_ok, negb_true_iff, J.
  - rewrite A. exact V.
Qed.
Lemma pool_reconcile_all d s f b extra p : distinct_hashes hash (map e_tx p) -> NoDup (map e_tx p) ->
  let filtered := filter (fun e => negb (ShouldEvict Blake2b (e_tx e) b)) p in
  each_with_earlier d s (add64 (h_height f) 1) (others extra) (map e_tx filtered) ->
  Pool_ReconcileBlock d s f b extra p = Ret filtered.
Proof.
  intros U N filtered V. unfold PoolModel.Pool_ReconcileBlock, FindValidTransactions. fold filtered.
  rewrite (find_valid_all d s f extra (map e_ptr filtered) []).
  - cbn [obind app]. assert (G : forall l, incl l filtered -> entries_at Blake2b filtered (map e_ptr l) = Ret l).
    { induction l as [|e l IH]; intros I; [reflexivity|]. cbn [map entries_at]. destruct (find _ filtered) as [e'|] eqn:F.
      - apply find_some in F as (F1 & F2). apply tx_eqb_eq in F2. rewrite IH by (intros x J; apply I; right; exact J). cbn [obind].
        assert (Ee : e' = e); [|rewrite Ee; reflexivity]. assert (J1 : In e' p) by (apply filter_In in F1; apply F1). assert (J2 : In e p) by (specialize (I e (or_introl eq_refl)); apply filter_In in I; apply I).
        assert (Et : e_tx e' = e_tx e) by (apply U; [apply in_map, J1|apply in_map, J2|exact F2]). clear -N J1 J2 Et.
        induction p as [|x q IHq]; [destruct J1|]. cbn [map] in N. inversion_clear N as [|? ? N1 N2]. destruct J1 as [<-|J1], J2 as [<-|J2]; [reflexivity| | |apply IHq; assumption].
        + exfalso. apply N1. rewrite Et. apply in_map, J2.
        + exfalso. apply N1. rewrite <- Et. apply in_map, J1.
      - exfalso. pose proof (find_none _ _ F e (I e (or_introl eq_refl))) as K. cbn in K. apply not_true_iff_false in K. apply K, tx_eqb_eq. reflexivity. }
    apply G. intros x J. exact J.
  - intros before t after E. apply (f_equal (map p_tx)) in E. rewrite map_app in E. cbn [map] in E. rewrite map_map in E. cbn [app]. exact (V _ _ _ E).
Qed.

Lemma reconcile_ok d s f b p p' : ReconcileBlock d s f b p = (Ret tt, p') -> distinct_hashes hash (map e_tx (m_memPool p)) -> distinct_hashes hash (map e_tx (m_stemPool p)) ->
  let height := add64 (h_height f) 1 in
  incl (m_memPool p') (m_memPool p) /\ incl (m_stemPool p') (m_stemPool p) /\
  Forall (shares_nothing b) (map e_tx (m_memPool p' ++ m_stemPool p')) /\
  each_with_earlier d s height [] (map e_tx (m_memPool p')) /\
  exists extra, Pool_Aggregate (m_memPool p') = Ret extra /\ each_with_earlier d s height (others extra) (map e_tx (m_stemPool p')).
Proof.
  unfold PoolModel.ReconcileBlock. intros E U1 U2. cbv zeta. destruct (Pool_ReconcileBlock d s f b None (m_memPool p)) as [mem| |] eqn:E1; try discriminate.
  destruct (Pool_Aggregate mem) as [extra| |] eqn:E2; try discriminate. destruct (Pool_ReconcileBlock d s f b extra (m_stemPool p)) as [stem| |] eqn:E3; try discriminate.
  injection E as <-. cbn [m_memPool m_stemPool]. destruct (pool_reconcile_ok _ _ _ _ _ _ _ E1 U1) as (A1 & A2 & A3). destruct (pool_reconcile_ok _ _ _ _ _ _ _ E3 U2) as (B1 & B2 & B3).
  split; [exact A1|]. split; [exact B1|]. split; [rewrite map_app; apply Forall_app; split; assumption|]. split; [exact A3|]. exists extra. split; [exact E2|exact B3].
Qed.

(** ** What a jointly acceptable list implies *)
Lemma each_whole d s h ts : each_with_earlier d s h [] ts -> ts <> [] -> acceptable_together d s h ts.
Proof.
  intros A N. destruct (rev ts) as [|t r] eqn:R; [exfalso; apply N; rewrite <- (rev_involutive ts), R; reflexivity|].
  assert (E : ts = rev r ++ [t]) by (rewrite <- (rev_involutive ts), R; reflexivity). rewrite E. apply (A (rev r) t [] E).
Qed.
Lemma valid_inputs_known m d s : forall ins i, valid_inputs m d s ins = Ret true -> In i ins -> GetOutputPosition d (i_commitment i) <> None.
Proof.
  induction ins as [|x ins IH]; intros i E J; [destruct J|]. cbn [valid_inputs] in E. destruct (GetOutputPosition d (i_commitment x)) as [loc|] eqn:Ex; [|discriminate].
  destruct (Output_GetAt s (loc_leaf loc)) as [[o|]| |]; try discriminate. cbn [obind] in E. destruct (negb _); [discriminate|]. destruct (_ && _); [discriminate|].
  destruct J as [<-|J]; [rewrite Ex; discriminate|exact (IH i E J)].
Qed.
Lemma acceptable_known d s h t i : acceptable d s h t -> In i (b_inputs (t_body t)) -> GetOutputPosition d (i_commitment i) <> None.
Proof.
  intros (_ & A) J. unfold IsValid in A. destruct (valid_inputs _ d s _) as [[]| |] eqn:E; try discriminate. exact (valid_inputs_known _ _ _ _ _ E J).
Qed.
Lemma aggregate_input ts a t i : Aggregate Blake2b AddBF ts = Ret a -> In t ts -> In i (b_inputs (t_body t)) ->
  In i (b_inputs (t_body a)) \/ exists t', In t' ts /\ In (i_commitment i) (map o_commitment (b_outputs (t_body t'))).
Proof.
  intros E J Ji. destruct ts as [|t1 [|t2 ts]]; [discriminate| |].
  - apply Ret_inj in E. subst t1. destruct J as [<-|[]]. left. exact Ji.
  - apply aggregate_many in E as (ins & outs & C & _ & P1 & _ & _). destruct (cut_through_kept _ _ _ _ C) as (K & _).
    destruct (in_dec (list_eq_dec N.eq_dec) (i_commitment i) (map o_commitment (flat_map (fun x => b_outputs (t_body x)) (t1 :: t2 :: ts)))) as [D|D].
    + right. apply in_map_iff in D as (o & Eo & D). apply in_flat_map in D as (t' & D1 & D2). exists t'. split; [exact D1|]. rewrite <- Eo. apply in_map, D2.
    + left. eapply Permutation_in; [exact P1|]. apply K. split; [|exact D]. apply in_flat_map. exists t. split; assumption.
Qed.
Lemma together_spends d s h ts t i : acceptable_together d s h ts -> In t ts -> In i (b_inputs (t_body t)) ->
  GetOutputPosition d (i_commitment i) <> None \/ exists t', In t' ts /\ In (i_commitment i) (map o_commitment (b_outputs (t_body t'))).
Proof. intros (a & E & Ok) J Ji. destruct (aggregate_input _ _ _ _ E J Ji) as [K|K]; [left; exact (acceptable_known _ _ _ _ _ Ok K)|right; exact K]. Qed.

(** ** Where broadcasts come from *)
Lemma select_ok d s f st fresh p valid a : select Blake2b VRP VKS AddC CT CB AddBF env d s f st fresh p = Ret (valid, Some a) ->
  valid <> [] /\ (forall t, In t valid -> exists e, In e (m_stemPool p) /\ e_ptr e = t /\ m_status e = st) /\ Aggregate Blake2b AddBF (map p_tx valid) = Ret (p_tx a).
Proof.
  unfold select. destruct (FindTransactionsByStatus (m_stemPool p) st) as [|t0 ts0] eqn:F; [discriminate|]. rewrite <- F. clear t0 ts0 F.
  destruct (Pool_Aggregate (m_memPool p)) as [ex| |]; try discriminate. cbn [obind]. unfold FindValidTransactions.
  destruct (FindValid d s f ex [] _) as [v| |] eqn:V; try discriminate. cbn [obind]. destruct (find_valid_ok _ _ _ _ _ _ _ V (each_nil _ _ _ _)) as (_ & kept & -> & Sb). cbn [app].
  assert (I : forall t, In t kept -> exists e, In e (m_stemPool p) /\ e_ptr e = t /\ m_status e = st).
  { intros t J. apply (sublist_incl _ _ Sb) in J. unfold FindTransactionsByStatus in J. apply in_map_iff in J as (e & Et & J). apply filter_In in J as (J & K). exists e. split; [exact J|]. split; [exact Et|].
    destruct (m_status e), st; try discriminate; reflexivity. }
  destruct kept as [|t1 [|t2 kept]]; [discriminate| |].
  - intros E. apply Ret_inj in E. injection E as <- <-. split; [discriminate|]. split; [exact I|reflexivity].
  - destruct (Aggregate_txs Blake2b AddBF (map p_tx (t1 :: t2 :: kept))) as [a'| |] eqn:A; try discriminate. cbn [obind]. intros E. apply Ret_inj in E. injection E as <- <-.
    split; [discriminate|]. split; [exact I|exact A].
Qed.
(** ** Statuses and times *)
Variable fee_base : N.
Variable stemProbability embargoSeconds : N.
Lemma remove_incl p t : incl (RemoveTransaction Blake2b p t) p.
Proof. induction p as [|e p IH]; intros x J; [destruct J|]. cbn [RemoveTransaction] in J. destruct (tx_eqb Blake2b t (e_tx e)); [right; exact J|]. destruct J as [<-|J]; [left; reflexivity|right; exact (IH x J)]. Qed.
Lemma fold_remove_incl ts : forall p, incl (fold_left (fun stem t => RemoveTransaction Blake2b stem (p_tx t)) ts p) p.
Proof. induction ts as [|t ts IH]; intros p x J; [exact J|]. cbn [fold_left] in J. apply (remove_incl p (p_tx t)), (IH _ x J). Qed.
Lemma entries_incl filtered : forall ts es, entries_at Blake2b filtered ts = Ret es -> incl es filtered.
Proof.
  induction ts as [|t ts IH]; intros es E; cbn [entries_at] in E; [apply Ret_inj in E; subst es; intros x []|].
  destruct (find _ filtered) as [e|] eqn:F; [|discriminate]. destruct (entries_at Blake2b filtered ts) as [es'| |]; try discriminate. cbn [obind] in E. apply Ret_inj in E. subst es.
  apply find_some in F as (F & _). intros x [<-|J]; [exact F|exact (IH es' eq_refl x J)].
Qed.
Lemma pool_reconcile_incl d s f b extra p p' : Pool_ReconcileBlock d s f b extra p = Ret p' -> incl p' p.
Proof.
  unfold PoolModel.Pool_ReconcileBlock. intros E. destruct (FindValidTransactions _ _ _ _ _ _ _ _ _ _ _ _ _) as [v| |]; try discriminate. cbn [obind] in E.
  intros x J. apply (entries_incl _ _ _ E) in J. apply filter_In in J. apply J.
Qed.
Definition untimed (p : txpool) : Prop := Forall (fun e => m_timestamp e = 0%Z) (m_memPool p) /\ Forall (fun e => m_timestamp e = 0%Z) (m_stemPool p).
Lemma forall_incl {A} (P : A -> Prop) l l' : incl l l' -> Forall P l' -> Forall P l.
Proof. intros I F. apply Forall_forall. intros x J. rewrite Forall_forall in F. apply F, I, J. Qed.
Lemma add_untimed d set t ty tip r p out p' : AddTransaction Blake2b VRP VKS AddC CT CB env fee_base stemProbability d set t ty tip r p = (out, p') -> untimed p -> untimed p'.
Proof.
  unfold AddTransaction. intros E (U1 & U2).
  repeat match type of E with (if ?c then _ else _) = _ => destruct c | match ?c with _ => _ end = _ => destruct c end;
    try (injection E as <- <-; split; assumption).
  destruct ty; injection E as <- <-; unfold Pool_AddTransaction; split; cbn [m_memPool m_stemPool]; try assumption; try (apply Forall_app; split; [assumption|constructor; [reflexivity|constructor]]).
  exact (forall_incl _ _ _ (remove_incl _ _) U2).
Qed.
Lemma chain_add_untimed w t ty r p out p' : Chain_AddTransaction Blake2b VRP VKS AddC CT CB env fee_base stemProbability w t ty r p = (out, p') -> untimed p -> untimed p'.
Proof.
  unfold Chain_AddTransaction. intros E U. destruct (w_tip w) as [tip|]; [|injection E as <- <-; exact U].
  destruct (AddTransaction _ _ _ _ _ _ _ _ _ _ _ _ _ _ _ _) as (x, q) eqn:A. pose proof (add_untimed _ _ _ _ _ _ _ _ _ A U) as V.
  destruct x as [[]| |]; injection E as <- <-; exact V.
Qed.
Lemma change_untimed p ts st : Forall (fun e => m_timestamp e = 0%Z) p -> Forall (fun e => m_timestamp e = 0%Z) (ChangeStatus p ts st).
Proof. intros F. unfold ChangeStatus. apply Forall_map. eapply Forall_impl; [|exact F]. intros e H. cbv beta. destruct (existsb _ _); exact H. Qed.
Lemma stem_untimed d s f fresh p out p' : GetTransactionToStem Blake2b VRP VKS AddC CT CB AddBF env d s f fresh p = (out, p') -> untimed p -> untimed p'.
Proof.
  unfold GetTransactionToStem. intros E (U1 & U2). destruct (select _ _ _ _ _ _ _ _ _ _ _ _ _ _) as [(v, a)| |]; injection E as <- <-; split; try assumption. apply change_untimed, U2.
Qed.
Lemma fluff_untimed d s f fresh p out p' : GetTransactionToFluff Blake2b VRP VKS AddC CT CB AddBF env d s f fresh p = (out, p') -> untimed p -> untimed p'.
Proof.
  unfold GetTransactionToFluff. intros E (U1 & U2). destruct (select _ _ _ _ _ _ _ _ _ _ _ _ _ _) as [(v, [a|])| |]; injection E as <- <-; split; try assumption.
  - apply Forall_app. split; [assumption|constructor; [reflexivity|constructor]].
  - exact (forall_incl _ _ _ (fold_remove_incl _ _) U2).
Qed.
Lemma expired_untimed w : forall ts p out p', add_expired Blake2b VRP VKS AddC CT CB env fee_base stemProbability w ts p = (out, p') -> untimed p -> untimed p'.
Proof.
  induction ts as [|t ts IH]; intros p out p' E U; cbn [add_expired] in E; [injection E as <- <-; exact U|].
  destruct (Chain_AddTransaction _ _ _ _ _ _ _ _ _ _ _ _ _ p) as (x, q) eqn:A. pose proof (chain_add_untimed _ _ _ _ _ _ _ A U) as V.
  destruct x as [ok| |]; try (injection E as <- <-; exact V). destruct (add_expired _ _ _ _ _ _ _ _ _ w ts q) as (y, q2) eqn:B. pose proof (IH _ _ _ B V) as V2.
  destruct y; injection E as <- <-; exact V2.
Qed.
Lemma step_untimed e p out p' : pool_step Blake2b VRP VKS AddC CT CB AddBF env fee_base stemProbability embargoSeconds e p = (out, p') -> untimed p -> untimed p'.
Proof.
  destruct e; cbn [pool_step]; intros E U.
  - destruct (AddTransaction _ _ _ _ _ _ _ _ _ _ _ _ _ _ _ p) as (x, q) eqn:A. injection E as <- <-. exact (add_untimed _ _ _ _ _ _ _ _ _ A U).
  - destruct (ReconcileBlock d s flushed b p) as (x, q) eqn:A. injection E as <- <-. unfold PoolModel.ReconcileBlock in A. destruct U as (U1 & U2).
    destruct (Pool_ReconcileBlock d s flushed b None (m_memPool p)) as [mem| |] eqn:E1; try (injection A as <- <-; split; try assumption; constructor).
    pose proof (forall_incl _ _ _ (pool_reconcile_incl _ _ _ _ _ _ _ E1) U1) as V1.
    destruct (Pool_Aggregate mem) as [ex| |]; try (injection A as <- <-; split; assumption).
    destruct (Pool_ReconcileBlock d s flushed b ex (m_stemPool p)) as [stem| |] eqn:E3; injection A as <- <-; split; try assumption; try constructor.
    exact (forall_incl _ _ _ (pool_reconcile_incl _ _ _ _ _ _ _ E3) U2).
  - unfold ProcessStemPhase in E. destruct (negb relay); [injection E as <- <-; exact U|]. destruct (w_set w) as [s|]; [|injection E as <- <-; exact U].
    destruct (GetTransactionToStem _ _ _ _ _ _ _ _ _ _ _ _ p) as (x, q) eqn:A. pose proof (stem_untimed _ _ _ _ _ _ _ A U) as V.
    destruct x as [[t|]| |]; try (injection E as <- <-; exact V). destruct success; [injection E as <- <-; exact V|].
    destruct (Chain_AddTransaction _ _ _ _ _ _ _ _ _ _ _ _ _ q) as (y, q2) eqn:B. pose proof (chain_add_untimed _ _ _ _ _ _ _ B V) as V2. destruct y as [[]| |]; injection E as <- <-; exact V2.
  - unfold ProcessFluffPhase in E. destruct (w_set w) as [s|]; [|injection E as <- <-; exact U].
    destruct (GetTransactionToFluff _ _ _ _ _ _ _ _ _ _ _ _ p) as (x, q) eqn:A. pose proof (fluff_untimed _ _ _ _ _ _ _ A U) as V. destruct x as [[t|]| |]; injection E as <- <-; exact V.
  - exact (expired_untimed _ _ _ _ _ E U).
Qed.
Lemma reached_untimed p : pool_reached Blake2b VRP VKS AddC CT CB AddBF env fee_base stemProbability embargoSeconds p -> untimed p.
Proof. induction 1 as [|p e r p' _ IH E _]; [split; constructor|]. exact (step_untimed _ _ _ _ E IH). Qed.

End Proofs.
