(** The wallet tables: inserting and replacing rows, and what a refresh does to them. *)
From Coq Require Import Permutation.
From Verif Require Import Base Bytes FileModel WalletModel WalletSpec.
Local Open Scope N_scope.


Lemma existsb_com l c : existsb (fun o => bytes_eqb (c_commitment o) c) l = true <-> In c (coms l).
Proof.
  rewrite existsb_exists. unfold coms. rewrite in_map_iff. split; intros (o & A & B).
  - exists o. apply bytes_eqb_spec in B. auto.
  - exists o. split; auto. apply bytes_eqb_spec. exact A.
Qed.
Lemma existsb_com_false l c : existsb (fun o => bytes_eqb (c_commitment o) c) l = false <-> ~ In c (coms l).
Proof. rewrite <- existsb_com. destruct (existsb _ _); split; congruence. Qed.
Lemma existsb_in l c : existsb (bytes_eqb c) l = true <-> In c l.
Proof.
  rewrite existsb_exists. split.
  - intros (x & A & B). apply bytes_eqb_spec in B. congruence.
  - intros H. exists c. split; auto. apply bytes_eqb_refl.
Qed.

Lemma save_output_new l c : ~ In (c_commitment c) (coms l) -> save_output l c = l ++ [c].
Proof. intros H. unfold save_output. apply existsb_com_false in H. rewrite H. reflexivity. Qed.
Lemma save_output_at pre o post c : NoDup (coms (pre ++ o :: post)) -> c_commitment c = c_commitment o ->
  save_output (pre ++ o :: post) c = pre ++ c :: post.
Proof.
  intros N E. unfold save_output.
  assert (X : existsb (fun o0 => bytes_eqb (c_commitment o0) (c_commitment c)) (pre ++ o :: post) = true).
  { apply existsb_com. unfold coms. rewrite map_app. apply in_or_app. right. left. auto. }
  rewrite X, map_app. cbn [map]. rewrite <- E, bytes_eqb_refl.
  unfold coms in N. rewrite map_app in N. cbn [map] in N. apply NoDup_remove_2 in N. rewrite <- E in N.
  assert (G : forall l, ~ In (c_commitment c) (map c_commitment l) ->
    map (fun o0 => if bytes_eqb (c_commitment o0) (c_commitment c) then c else o0) l = l).
  { clear. intros l H. rewrite <- (map_id l) at 2. apply map_ext_in. intros a A.
    destruct (bytes_eqb _ _) eqn:Q; auto. apply bytes_eqb_spec in Q. exfalso. apply H. rewrite <- Q. apply in_map. exact A. }
  rewrite !G; auto; intros X0; apply N; apply in_or_app; auto.
Qed.
Lemma save_output_in l c x : In x (save_output l c) <-> x = c \/ (In x l /\ c_commitment x <> c_commitment c).
Proof.
  unfold save_output. destruct (existsb _ l) eqn:E.
  - apply existsb_exists in E. destruct E as (o & Io & Eo). rewrite in_map_iff. split.
    + intros (y & A & B). destruct (bytes_eqb (c_commitment y) (c_commitment c)) eqn:Q; subst; auto.
      right. split; auto. apply bytes_eqb_false. exact Q.
    + intros [->|(A & B)].
      * exists o. rewrite Eo. auto.
      * exists x. apply bytes_eqb_false in B. rewrite B. auto.
  - pose proof (proj1 (existsb_com_false l (c_commitment c)) E) as N. rewrite in_app_iff. cbn [In]. split.
    + intros [A|[<-|[]]]; auto. right. split; auto. intros Q. apply N. rewrite <- Q. apply in_map. exact A.
    + intros [->|(A & _)]; auto.
Qed.
Lemma save_output_coms l c : NoDup (coms l) -> NoDup (coms (save_output l c)).
Proof.
  intros N. destruct (in_dec (list_eq_dec N.eq_dec) (c_commitment c) (coms l)) as [I|I].
  - apply in_map_iff in I. destruct I as (o & E & I). apply in_split in I. destruct I as (a & b & ->).
    rewrite save_output_at by auto. unfold coms in *. rewrite map_app in *. cbn [map] in *. rewrite <- E. exact N.
  - rewrite save_output_new by exact I. unfold coms. rewrite map_app. cbn [map].
    apply Permutation_NoDup with (l := c_commitment c :: map c_commitment l).
    + apply Permutation_cons_append.
    + constructor; auto.
Qed.
Lemma save_outputs_in cs : NoDup (coms cs) -> forall l x,
  In x (fold_left save_output cs l) <-> In x cs \/ (In x l /\ ~ In (c_commitment x) (coms cs)).
Proof.
  induction cs as [|c cs IH]; intros N l x; cbn [fold_left coms map In]; [tauto|].
  inversion N; subst. rewrite IH by assumption. rewrite save_output_in. fold (coms cs) in *.
  split.
  - intros [A|([->|(A & B)] & C)]; auto. right. split; auto. intros [Q|Q]; congruence.
  - intros [[->|A]|(A & B)]; auto. right. split; [|tauto]. right. split; auto.
Qed.
Lemma save_outputs_coms cs : forall l, NoDup (coms l) -> NoDup (coms (fold_left save_output cs l)).
Proof. induction cs as [|c cs IH]; intros l N; cbn [fold_left]; auto. apply IH, save_output_coms, N. Qed.
Lemma save_outputs_new cs : forall l, NoDup (coms (l ++ cs)) -> fold_left save_output cs l = l ++ cs.
Proof.
  induction cs as [|c cs IH]; intros l N; cbn [fold_left]; [rewrite app_nil_r; reflexivity|].
  rewrite save_output_new.
  - rewrite IH; rewrite <- app_assoc; [reflexivity|exact N].
  - unfold coms in N. rewrite map_app in N. cbn [map] in N. apply NoDup_remove_2 in N.
    intros H. apply N. apply in_or_app. left. exact H.
Qed.
(** saving the changed rows of the table rewrites it in place *)
Definition upd (f : OutputDataEntity -> option OutputDataEntity) (o : OutputDataEntity) : OutputDataEntity :=
  match f o with Some o' => o' | None => o end.
Definition changes (f : OutputDataEntity -> option OutputDataEntity) (l : list OutputDataEntity) : list OutputDataEntity :=
  flat_map (fun o => match f o with Some o' => [o'] | None => [] end) l.
Definition keeps_com (f : OutputDataEntity -> option OutputDataEntity) : Prop :=
  forall o o', f o = Some o' -> c_commitment o' = c_commitment o.
Lemma upd_com f o : keeps_com f -> c_commitment (upd f o) = c_commitment o.
Proof. intros K. unfold upd. destruct (f o) eqn:E; auto. Qed.
Lemma upd_coms f l : keeps_com f -> coms (map (upd f) l) = coms l.
Proof. intros K. unfold coms. rewrite map_map. apply map_ext. intros o. apply upd_com. exact K. Qed.
Lemma save_changes f : keeps_com f -> forall post pre, NoDup (coms (pre ++ post)) ->
  fold_left save_output (changes f post) (pre ++ post) = pre ++ map (upd f) post.
Proof.
  intros K. induction post as [|o post IH]; intros pre N; cbn [changes flat_map map fold_left]; [reflexivity|].
  fold (changes f post).
  assert (E1 : pre ++ upd f o :: post = (pre ++ [upd f o]) ++ post) by (rewrite <- app_assoc; reflexivity).
  assert (N1 : NoDup (coms ((pre ++ [upd f o]) ++ post))).
  { rewrite <- E1. unfold coms in *. rewrite map_app in *. cbn [map] in *. rewrite upd_com by exact K. exact N. }
  destruct (f o) as [o'|] eqn:F; cbn [app fold_left].
  - rewrite save_output_at by (try exact N; apply K; exact F).
    assert (U : upd f o = o') by (unfold upd; rewrite F; reflexivity). rewrite U in *.
    rewrite E1, IH by exact N1. rewrite <- app_assoc. reflexivity.
  - assert (U : upd f o = o) by (unfold upd; rewrite F; reflexivity). rewrite U in *.
    rewrite E1, IH by exact N1. rewrite <- app_assoc. reflexivity.
Qed.

(** *** transactions *)
Lemma existsb_id l i : existsb (fun u => w_id u =? i) l = true <-> In i (ids l).
Proof.
  rewrite existsb_exists. unfold ids. rewrite in_map_iff. split; intros (o & A & B).
  - exists o. apply N.eqb_eq in B. auto.
  - exists o. split; auto. apply N.eqb_eq. exact A.
Qed.
Lemma save_tx_new l t : ~ In (w_id t) (ids l) -> save_tx l t = l ++ [t].
Proof.
  intros H. unfold save_tx. destruct (existsb _ l) eqn:E; auto. apply existsb_id in E. contradiction.
Qed.
Lemma save_tx_at pre o post c : NoDup (ids (pre ++ o :: post)) -> w_id c = w_id o ->
  save_tx (pre ++ o :: post) c = pre ++ c :: post.
Proof.
  intros N E. unfold save_tx.
  assert (X : existsb (fun u => w_id u =? w_id c) (pre ++ o :: post) = true).
  { apply existsb_id. unfold ids. rewrite map_app. apply in_or_app. right. left. auto. }
  rewrite X, map_app. cbn [map]. rewrite <- E, N.eqb_refl.
  unfold ids in N. rewrite map_app in N. cbn [map] in N. apply NoDup_remove_2 in N. rewrite <- E in N.
  assert (G : forall l, ~ In (w_id c) (map w_id l) -> map (fun u => if w_id u =? w_id c then c else u) l = l).
  { clear. intros l H. rewrite <- (map_id l) at 2. apply map_ext_in. intros a A.
    destruct (_ =? _) eqn:Q; auto. apply N.eqb_eq in Q. exfalso. apply H. rewrite <- Q. apply in_map. exact A. }
  rewrite !G; auto; intros X0; apply N; apply in_or_app; auto.
Qed.

(** what a refresh may do to a transaction *)
Definition tx_step (t t' : WalletTx) : Prop :=
  w_id t' = w_id t /\ w_slate t' = w_slate t /\ w_tx t' = w_tx t /\
  w_credited t' = w_credited t /\ w_debited t' = w_debited t /\
  (w_type t' = w_type t \/ (w_type t = RECEIVING_IN_PROGRESS /\ w_type t' = RECEIVED) \/
   (w_type t = SENDING_FINALIZED /\ w_type t' = SENT)).
Lemma tx_step_refl t : tx_step t t.
Proof. repeat split; auto. Qed.
Lemma forall2_ids txs l : Forall2 tx_step txs l -> ids l = ids txs.
Proof. induction 1; cbn; [reflexivity|]. unfold ids in *. rewrite IHForall2. f_equal. apply H. Qed.
Lemma save_tx_step txs l t t' : NoDup (ids txs) -> Forall2 tx_step txs l -> In t txs -> tx_step t t' ->
  Forall2 tx_step txs (save_tx l t').
Proof.
  intros N F I St. apply in_split in I. destruct I as (a & b & ->).
  pose proof (forall2_ids _ _ F) as E.
  apply Forall2_app_inv_l in F. destruct F as (la & lb & Fa & Fb & ->). inversion Fb; subst.
  rewrite save_tx_at.
  - apply Forall2_app; auto.
  - rewrite E. exact N.
  - destruct St as (-> & _). destruct H1 as (-> & _). reflexivity.
Qed.
Lemma add_txs_step txs us : NoDup (ids txs) ->
  (forall u, In (Some u) us -> exists t, In t txs /\ tx_step t u) ->
  forall d, Forall2 tx_step txs (d_txs d) ->
  Forall2 tx_step txs (d_txs (fold_left add_tx_opt us d)) /\
  d_outputs (fold_left add_tx_opt us d) = d_outputs d /\ d_nextTx (fold_left add_tx_opt us d) = d_nextTx d /\
  d_refresh (fold_left add_tx_opt us d) = d_refresh d /\ d_accounts (fold_left add_tx_opt us d) = d_accounts d /\
  d_contexts (fold_left add_tx_opt us d) = d_contexts d /\ d_slates (fold_left add_tx_opt us d) = d_slates d.
Proof.
  intros N. induction us as [|u us IH]; intros H d F; cbn [fold_left]; [auto 10|].
  destruct u as [u|]; cbn [add_tx_opt].
  - destruct (H u (or_introl eq_refl)) as (t & I & St).
    specialize (IH (fun v Hv => H v (or_intror Hv)) (AddTransaction u d)).
    exact (IH (save_tx_step _ _ _ _ N F I St)).
  - apply IH; auto. intros v Hv. apply H. right. exact Hv.
Qed.
Lemma confirm_tx_step txs o u : confirm_tx txs o = Some u -> exists t, In t txs /\ tx_step t u.
Proof.
  unfold confirm_tx. destruct (c_tx o) as [i|]; [|discriminate]. destruct (c_height o) as [h|]; [|discriminate].
  destruct (find _ txs) as [t|] eqn:E; [|discriminate]. apply find_some in E. destruct E as (I & _).
  destruct (w_type t) eqn:T; try discriminate; intros [= <-]; exists t; (split; [exact I|]); repeat split; auto.
Qed.
Lemma sent_tx_step outs t u : sent_tx outs t = Some u -> tx_step t u.
Proof.
  unfold sent_tx. destruct (w_tx t); [|discriminate]. destruct (w_type t) eqn:T; try discriminate.
  destruct (find _ _); [|discriminate]. destruct (FindOutput _ _); [|discriminate]. destruct (status_eqb _ _); [|discriminate].
  intros [= <-]. repeat split; auto.
Qed.
Lemma refresh_txs_spec outs txs d : NoDup (ids txs) -> d_txs d = txs ->
  let d' := RefreshTransactions outs txs d in
  Forall2 tx_step txs (d_txs d') /\ d_outputs d' = d_outputs d /\ d_nextTx d' = d_nextTx d /\
  d_refresh d' = d_refresh d /\ d_accounts d' = d_accounts d /\ d_contexts d' = d_contexts d /\ d_slates d' = d_slates d.
Proof.
  intros N E d'. unfold d', RefreshTransactions.
  set (d1 := fold_left add_tx_opt (map (confirm_tx txs) outs) d).
  assert (F0 : Forall2 tx_step txs (d_txs d)).
  { rewrite E. clear. induction txs; constructor; auto. apply tx_step_refl. }
  destruct (add_txs_step txs (map (confirm_tx txs) outs) N) with (d := d) as (F1 & A1 & A2 & A3 & A4 & A5 & A6); auto.
  { intros u Hu. apply in_map_iff in Hu. destruct Hu as (o & Q & _). eapply confirm_tx_step; eauto. }
  fold d1 in F1, A1, A2, A3, A4, A5, A6.
  destruct (add_txs_step txs (map (sent_tx outs) txs) N) with (d := d1) as (F2 & B1 & B2 & B3 & B4 & B5 & B6); auto.
  { intros u Hu. apply in_map_iff in Hu. destruct Hu as (t & Q & I). exists t. split; auto. eapply sent_tx_step; eauto. }
  repeat split; congruence || assumption.
Qed.

(** *** refreshing outputs *)
Lemma refresh_keeps nv : keeps_com (refresh_output nv).
Proof.
  intros o o'. unfold refresh_output. destruct (n_location nv (c_commitment o)); destruct (c_status o); try discriminate; intros [= <-]; reflexivity.
Qed.
Definition refreshed (nv : NodeView) : OutputDataEntity -> OutputDataEntity := upd (refresh_output nv).
Lemma refresh_loop_spec nv : forall post pre d, d_outputs d = pre ++ post -> NoDup (coms (pre ++ post)) ->
  refresh_loop nv post d = (map (refreshed nv) post, set_outputs (pre ++ map (refreshed nv) post) d).
Proof.
  induction post as [|o post IH]; intros pre d E N; cbn [refresh_loop map].
  - rewrite <- E. destruct d; reflexivity.
  - assert (E1 : pre ++ refreshed nv o :: post = (pre ++ [refreshed nv o]) ++ post) by (rewrite <- app_assoc; reflexivity).
    assert (N1 : NoDup (coms ((pre ++ [refreshed nv o]) ++ post))).
    { rewrite <- E1. unfold coms in *. rewrite map_app in *. cbn [map] in *. unfold refreshed.
      rewrite upd_com by apply refresh_keeps. exact N. }
    destruct (refresh_output nv o) as [o'|] eqn:F.
    + assert (U : refreshed nv o = o') by (unfold refreshed, upd; rewrite F; reflexivity). rewrite U in *.
      rewrite (IH (pre ++ [o'])); auto.
      * cbn [AddOutputs set_outputs d_outputs d_txs d_nextTx d_refresh d_accounts d_contexts d_slates].
        unfold set_outputs. cbn. rewrite <- app_assoc. reflexivity.
      * unfold AddOutputs. cbn [fold_left set_outputs d_outputs]. rewrite E.
        rewrite save_output_at by (try exact N; apply (refresh_keeps nv); exact F). exact E1.
    + assert (U : refreshed nv o = o) by (unfold refreshed, upd; rewrite F; reflexivity). rewrite U in *.
      rewrite (IH (pre ++ [o])); auto.
      * rewrite <- app_assoc. reflexivity.
      * rewrite E. exact E1.
Qed.

(** the transactions made for outputs found on chain *)
Definition found_tx (p : N * OutputDataEntity) : WalletTx :=
  mkWalletTx (fst p) RECEIVED None (c_height (snd p)) (c_amount (snd p)) 0 None None.
Fixpoint number (i : N) (l : list OutputDataEntity) : list (N * OutputDataEntity) :=
  match l with [] => [] | o :: r => (i, o) :: number (i + 1) r end.
Lemma number_ids l : forall i x, In x (map fst (number i l)) -> i <= x < i + N.of_nat (length l).
Proof. induction l as [|o l IH]; cbn [number map In fst length]; intros i x H; [destruct H|]. destruct H as [<-|H]; [lia|]. apply IH in H. lia. Qed.
Lemma number_nodup l : forall i, NoDup (map fst (number i l)).
Proof. induction l as [|o l IH]; intros i; cbn [number map fst]; constructor; auto. intros H. apply number_ids in H. lia. Qed.
Lemma number_snd l : forall i, map snd (number i l) = l.
Proof. induction l as [|o l IH]; intros i; cbn; f_equal; auto. Qed.

Lemma add_new_spec new : forall d,
  NoDup (coms (d_outputs d ++ new)) -> (forall i, In i (ids (d_txs d)) -> i < d_nextTx d) ->
  d_nextTx d + N.of_nat (length new) < W32 ->
  let ps := number (d_nextTx d) new in
  add_new_outputs new d =
   (map (fun p => SetWalletTxId (fst p) (snd p)) ps, map found_tx ps,
    mkDB (d_outputs d ++ map (fun p => SetWalletTxId (fst p) (snd p)) ps) (d_txs d ++ map found_tx ps)
         (d_nextTx d + N.of_nat (length new)) (d_refresh d) (d_accounts d) (d_contexts d) (d_slates d)).
Proof.
  induction new as [|o new IH]; intros d N B L ps; unfold ps; cbn [number map add_new_outputs].
  - rewrite !app_nil_r. cbn [length]. rewrite N.add_0_r. destruct d; reflexivity.
  - cbn [GetNextTransactionId fst snd].
    assert (Q : (d_nextTx d + 1) mod W32 = d_nextTx d + 1) by (apply N.mod_small; cbn [length] in L; lia). rewrite Q.
    assert (N0 : ~ In (c_commitment o) (coms (d_outputs d))).
    { unfold coms in *. rewrite map_app in N. cbn [map] in N. apply NoDup_remove_2 in N. intros H. apply N. apply in_or_app. auto. }
    assert (T0 : ~ In (d_nextTx d) (ids (d_txs d))) by (intros H; apply B in H; lia).
    set (d1 := AddTransaction _ _).
    assert (D1 : d1 = mkDB (d_outputs d ++ [SetWalletTxId (d_nextTx d) o]) (d_txs d ++ [found_tx (d_nextTx d, o)])
                           (d_nextTx d + 1) (d_refresh d) (d_accounts d) (d_contexts d) (d_slates d)).
    { unfold d1, AddTransaction, AddOutputs, set_txs, set_outputs, set_nextTx, found_tx. cbn -[save_output save_tx].
      rewrite save_output_new by exact N0. rewrite save_tx_new by exact T0. reflexivity. }
    rewrite D1. rewrite IH; cbn [d_outputs d_txs d_nextTx d_refresh d_accounts d_contexts d_slates].
    + f_equal. rewrite <- !app_assoc. cbn [app length]. f_equal. lia.
    + rewrite <- app_assoc. unfold coms in *. rewrite !map_app in *. cbn [map app] in *. exact N.
    + intros i. unfold ids. rewrite map_app, in_app_iff. cbn [map In found_tx w_id fst]. intros [H|[<-|[]]]; [apply B in H|]; lia.
    + cbn [length] in L. lia.
Qed.

Lemma new_outputs_fresh nv l o : In o (FindNewOutputs nv l) ->
  In o (n_restored nv) /\ c_status o <> SPENT /\ ~ In (c_commitment o) (coms l).
Proof.
  unfold FindNewOutputs. rewrite filter_In. intros (I & H). apply andb_prop in H. destruct H as (H1 & H2).
  split; auto. split.
  - intros E. rewrite E in H1. discriminate.
  - destruct (FindOutput l (c_commitment o)) eqn:F; [discriminate|]. intros X. unfold coms in X. apply in_map_iff in X.
    destruct X as (y & E & Iy). unfold FindOutput in F. pose proof (find_none _ _ F y Iy) as G. cbn beta in G.
    rewrite E, bytes_eqb_refl in G. discriminate.
Qed.
Lemma nodup_filter_coms f l : NoDup (coms l) -> NoDup (coms (filter f l)).
Proof.
  induction l as [|o l IH]; cbn [filter coms map]; intros N; [constructor|]. inversion N; subst.
  destruct (f o); auto. cbn [map]. constructor; [|auto]. intros H. apply H1. unfold coms in *.
  apply in_map_iff in H. destruct H as (y & E & I). apply filter_In in I. rewrite <- E. apply in_map. apply I.
Qed.
Lemma nodup_app {A} (a b : list A) : NoDup a -> NoDup b -> (forall x, In x a -> ~ In x b) -> NoDup (a ++ b).
Proof.
  induction 1; cbn; intros Nb H1; auto. constructor.
  - rewrite in_app_iff. intros [X|X]; [contradiction|]. apply (H1 x); [left; reflexivity|exact X].
  - apply IHNoDup; [exact Nb|]. intros y Y. apply H1. right. exact Y.
Qed.
Lemma new_nodup nv d : wf d -> node_wf nv d -> NoDup (coms (d_outputs d ++ FindNewOutputs nv (d_outputs d))).
Proof.
  intros (A & _) (B & _). unfold coms. rewrite map_app. apply nodup_app; auto.
  - apply (nodup_filter_coms _ _ B).
  - intros c Hc X. apply in_map_iff in X. destruct X as (o & E & I). apply new_outputs_fresh in I.
    destruct I as (_ & _ & I). apply I. unfold coms. rewrite E. exact Hc.
Qed.

(** the rows a refresh leaves: the old ones and those found on chain, each brought up to date *)
Definition found_rows (nv : NodeView) (d : WalletDB) : list (N * OutputDataEntity) :=
  number (d_nextTx d) (FindNewOutputs nv (d_outputs d)).
Definition all_rows (nv : NodeView) (d : WalletDB) : list OutputDataEntity :=
  d_outputs d ++ map (fun p => SetWalletTxId (fst p) (snd p)) (found_rows nv d).
Definition all_txs (nv : NodeView) (d : WalletDB) : list WalletTx := d_txs d ++ map found_tx (found_rows nv d).

Lemma coms_found nv d : coms (map (fun p => SetWalletTxId (fst p) (snd p)) (found_rows nv d)) = coms (FindNewOutputs nv (d_outputs d)).
Proof.
  unfold coms. rewrite map_map. cbn [SetWalletTxId c_commitment]. unfold found_rows.
  rewrite <- (number_snd (FindNewOutputs nv (d_outputs d)) (d_nextTx d)) at 2. rewrite map_map. reflexivity.
Qed.
Lemma all_txs_nodup nv d : wf d -> NoDup (ids (all_txs nv d)).
Proof.
  intros (_ & B & C). unfold all_txs, ids. rewrite map_app. apply nodup_app; auto.
  - rewrite map_map. cbn [found_tx w_id]. apply number_nodup.
  - intros i Hi. rewrite map_map. cbn [found_tx w_id]. intros X. apply number_ids in X. apply C in Hi. lia.
Qed.
Lemma found_length nv d : (length (FindNewOutputs nv (d_outputs d)) <= length (n_restored nv))%nat.
Proof. unfold FindNewOutputs. generalize (n_restored nv). induction l as [|o l IH]; cbn [filter length]; [lia|]. destruct (_ && _); cbn [length]; lia. Qed.

Lemma refresh_spec nv d outs d' : wf d -> node_wf nv d -> d_refresh d <= n_height nv -> Refresh nv d = (outs, d') ->
  outs = map (refreshed nv) (all_rows nv d) /\ d_outputs d' = outs /\ Forall2 tx_step (all_txs nv d) (d_txs d') /\
  d_nextTx d' = d_nextTx d + N.of_nat (length (FindNewOutputs nv (d_outputs d))) /\ d_refresh d' = n_height nv /\
  d_accounts d' = d_accounts d /\ d_contexts d' = d_contexts d /\ d_slates d' = d_slates d.
Proof.
  intros W NW LE. unfold Refresh. destruct (n_height nv <? d_refresh d) eqn:Q; [apply N.ltb_lt in Q; lia|].
  pose proof (found_length nv d) as FL. pose proof (new_nodup nv d W NW) as ND.
  rewrite add_new_spec; [|exact ND|apply W|destruct NW; lia].
  fold (found_rows nv d). fold (all_rows nv d). fold (all_txs nv d).
  assert (NR : NoDup (coms (all_rows nv d))).
  { unfold all_rows. unfold coms in *. rewrite map_app in *. pose proof (coms_found nv d) as CF. unfold coms in CF. rewrite CF. exact ND. }
  unfold RefreshOutputs. rewrite (refresh_loop_spec nv (all_rows nv d) []); [|reflexivity|exact NR].
  cbn [app]. unfold set_outputs, set_refresh. cbn [d_outputs d_txs d_nextTx d_refresh d_accounts d_contexts d_slates].
  intros E.
  set (d2 := mkDB (map (refreshed nv) (all_rows nv d)) (all_txs nv d) (d_nextTx d + N.of_nat (length (FindNewOutputs nv (d_outputs d))))
                  (n_height nv) (d_accounts d) (d_contexts d) (d_slates d)) in *.
  apply pair_equal_spec in E. destruct E as (<- & <-).
  destruct (refresh_txs_spec (map (refreshed nv) (all_rows nv d)) (all_txs nv d) d2 (all_txs_nodup nv d W) eq_refl) as (A & B & C & D & E & F & G).
  repeat split; try assumption; try (rewrite ?B, ?C, ?D, ?E, ?F, ?G; reflexivity).
Qed.
Lemma refresh_behind nv d : n_height nv < d_refresh d -> Refresh nv d = ([], d).
Proof. intros H. unfold Refresh. apply N.ltb_lt in H. rewrite H. reflexivity. Qed.
Lemma refresh_wf nv d outs d' : wf d -> node_wf nv d -> Refresh nv d = (outs, d') -> wf d'.
Proof.
  intros W NW E. destruct (N.lt_ge_cases (n_height nv) (d_refresh d)) as [L|L].
  - rewrite refresh_behind in E by exact L. injection E as _ <-. exact W.
  - destruct (refresh_spec nv d outs d' W NW L E) as (A & B & C & D & _).
    pose proof (forall2_ids _ _ C) as Q. repeat split.
    + rewrite B, A. unfold refreshed. rewrite upd_coms by apply refresh_keeps.
      unfold all_rows. pose proof (new_nodup nv d W NW) as ND. unfold coms in *. rewrite map_app in *.
      pose proof (coms_found nv d) as CF. unfold coms in CF. rewrite CF. exact ND.
    + rewrite Q. apply all_txs_nodup. exact W.
    + intros i. rewrite Q, D. unfold all_txs, ids. rewrite map_app, map_map, in_app_iff. cbn [found_tx w_id].
      intros [H|H]; [apply W in H; lia|]. apply number_ids in H. lia.
Qed.
