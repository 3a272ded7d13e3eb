(** Proofs about the pipes for received blocks and transactions. *)
From Coq Require Import Permutation.
From Verif Require Import Base PipeModel PipeSpec.
Local Open Scope nat_scope.

Lemma copy_loop_firstn {T} n (q items : list T) : (length items < n) -> copy_loop n items q = items ++ firstn (n - length items) q.
Proof.
  revert items. induction q as [|x q IH]; intros items L; cbn [copy_loop].
  - rewrite firstn_nil, app_nil_r. reflexivity.
  - assert (E : length (items ++ [x]) = S (length items)) by (rewrite app_length; cbn; lia).
    replace (n - length items) with (S (n - S (length items))) by lia. cbn [firstn].
    destruct (Nat.eqb_spec (length (items ++ [x])) n) as [E1|E1].
    + rewrite E in E1. replace (n - S (length items)) with 0 by lia. reflexivity.
    + rewrite IH by lia. rewrite E, <- app_assoc. reflexivity.
Qed.
Lemma copy_front_firstn {T} n (q : list T) : 0 < n -> copy_front n q = firstn n q.
Proof. intros L. unfold copy_front. rewrite copy_loop_firstn by (cbn; lia). cbn. rewrite Nat.sub_0_r. reflexivity. Qed.
Lemma pop_front_skipn {T} n (q : list T) : pop_front n q = skipn n q.
Proof. revert q. induction n; intros [|x q]; cbn; auto. Qed.

Lemma pairs_snoc {A} (R : A -> A -> Prop) l x : ForallOrdPairs R l -> Forall (fun a => R a x) l -> ForallOrdPairs R (l ++ [x]).
Proof.
  induction 1 as [|a l FA _ IH]; intros F; cbn [app]; [repeat constructor|].
  constructor; [|exact (IH (Forall_inv_tail F))]. apply Forall_app. split; [exact FA|]. repeat constructor. exact (Forall_inv F).
Qed.

Section BLOCKS.
Context {C : Type}.
Variable AddBlock : C -> Block -> C * Outcome.
Local Notation block_step := (block_step AddBlock).
Local Notation block_run := (block_run AddBlock).

Definition binv (p : BlockPipe C) (tr : list BlockEvent) : Prop :=
  accepted tr = removed tr ++ bp_queue p /\
  map be_ticket (accepted tr) = seq 0 (bp_count p) /\
  match bp_batch p with
  | None => Permutation (called tr) (removed tr)
  | Some l => l <> [] /\ length l <= 8 /\ map fst l = firstn (length l) (bp_queue p) /\ Permutation (called tr) (removed tr ++ map fst (filter snd l))
  end /\
  nearly_in_order (called tr) /\ bans tr = offenders tr.

Lemma binv_start c : binv (empty_pipe c) [].
Proof. repeat split; cbn; auto. constructor. Qed.

Lemma ev_app tr ev : accepted (tr ++ ev) = accepted tr ++ accepted ev /\ called (tr ++ ev) = called tr ++ called ev /\
  removed (tr ++ ev) = removed tr ++ removed ev /\ bans (tr ++ ev) = bans tr ++ bans ev /\ offenders (tr ++ ev) = offenders tr ++ offenders ev.
Proof. repeat split; apply flat_map_app. Qed.

Lemma none_done (l : list BlockEntry) : filter snd (map (fun e : BlockEntry => (e, false)) l) = [].
Proof. induction l; cbn; auto. Qed.
Lemma set_done_nth l : forall i e, nth_error l i = Some (e, false) ->
  map fst (set_done i l) = map fst l /\ length (set_done i l) = length l /\
  Permutation (map fst (filter snd (set_done i l))) (e :: map fst (filter snd l)).
Proof.
  induction l as [|[x b] l IH]; intros [|i] e E; cbn [nth_error] in E; try discriminate.
  - injection E as -> ->. cbn. repeat split; auto.
  - destruct (IH i e E) as (A & B & P). cbn [set_done map fst length filter snd]. rewrite A, B. repeat split; auto.
    destruct b; cbn [map fst]; [|exact P]. rewrite P. apply perm_swap.
Qed.

Lemma removed_map l : accepted (map Removed l) = [] /\ called (map Removed l) = [] /\ removed (map Removed l) = l /\ bans (map Removed l) = [] /\ offenders (map Removed l) = [].
Proof.
  unfold accepted, called, removed, bans, offenders. induction l as [|x l (A & B & D & E & F)]; cbn; auto. rewrite A, B, D, E, F. auto.
Qed.

Lemma ticket_at (acc : list BlockEntry) n i e : map be_ticket acc = seq 0 n -> nth_error acc i = Some e -> be_ticket e = i.
Proof.
  intros E H. assert (X : nth_error (map be_ticket acc) i = Some (be_ticket e)) by (rewrite nth_error_map, H; reflexivity).
  rewrite E in X. assert (L : i < n). { assert (Y : nth_error (seq 0 n) i <> None) by congruence. apply nth_error_Some in Y. rewrite seq_length in Y. exact Y. }
  rewrite (nth_error_nth' _ 0) in X by (rewrite seq_length; exact L). rewrite seq_nth in X by exact L. injection X as X. lia.
Qed.

Lemma binv_step p tr s : binv p tr -> binv (fst (block_step p s)) (tr ++ snd (block_step p s)).
Proof.
  intros (A & T & B & O & BN). destruct (ev_app tr (snd (block_step p s))) as (E1 & E2 & E3 & E4 & E5).
  unfold binv. rewrite E1, E2, E3, E4, E5. clear E1 E2 E3 E4 E5.
  destruct s as [peer b| |i| |c]; cbn [PipeModel.block_step].
  - unfold push_back_unique. destruct (existsb _ (bp_queue p)); cbn [fst snd accepted called removed bans offenders flat_map app].
    + rewrite !app_nil_r. repeat split; assumption.
    + cbn [bp_queue bp_batch bp_count]. rewrite !app_nil_r. split; [rewrite A, app_assoc; reflexivity|]. split.
      { rewrite map_app, T, seq_S. reflexivity. }
      split; [|split; assumption]. destruct (bp_batch p) as [l|]; [|exact B]. destruct B as (N & L & F & P). repeat split; auto.
      rewrite firstn_app, <- F. assert (length l <= length (bp_queue p)).
      { rewrite <- (map_length fst l), F. rewrite firstn_length. lia. }
      replace (length l - length (bp_queue p)) with 0 by lia. cbn [firstn]. rewrite app_nil_r. reflexivity.
  - assert (K : binv p (tr ++ []) ) by (rewrite app_nil_r; repeat split; assumption). rewrite app_nil_r in K.
    destruct (bp_batch p) as [l|] eqn:EB; cbn [fst snd].
    + cbn. rewrite !app_nil_r, EB. repeat split; try assumption; apply B.
    + rewrite copy_front_firstn by lia. destruct (firstn 8 (bp_queue p)) as [|x r] eqn:EF; cbn [fst snd].
      * cbn. rewrite !app_nil_r, EB. repeat split; assumption.
      * cbn [accepted called removed bans offenders flat_map bp_queue bp_batch bp_count]. rewrite !app_nil_r. repeat split; try assumption.
        -- discriminate.
        -- rewrite map_length, <- EF, firstn_length. lia.
        -- rewrite map_map. cbn [fst]. rewrite map_id, map_length, <- EF, firstn_length. rewrite EF.
           rewrite <- EF. destruct (Nat.min_spec 8 (length (bp_queue p))) as [[L ->]|[L ->]]; [reflexivity|].
           rewrite firstn_all, firstn_all2 by lia. reflexivity.
        -- assert (Z : filter snd (map (fun e : BlockEntry => (e, false)) (x :: r)) = []) by apply none_done.
           rewrite Z. cbn. rewrite app_nil_r. exact B.
  - destruct (bp_batch p) as [l|] eqn:EB; cbn [fst snd]; [|cbn; rewrite !app_nil_r, EB; repeat split; assumption].
    destruct (nth_error l i) as [[e [|]]|] eqn:EN; cbn [fst snd]; try (cbn; rewrite !app_nil_r, EB; repeat split; try assumption; apply B).
    destruct B as (N & L & F & P). destruct (set_done_nth l i e EN) as (S1 & S2 & S3).
    assert (OB : nearly_in_order (called tr ++ [e])).
    { apply pairs_snoc; [exact O|]. assert (TE : length (removed tr) <= be_ticket e).
      { rewrite (ticket_at (accepted tr) (bp_count p) (length (removed tr) + i) e T); [lia|].
        rewrite A, nth_error_app2 by lia. replace (length (removed tr) + i - length (removed tr)) with i by lia.
        assert (X : nth_error (map fst l) i = Some e) by (rewrite nth_error_map, EN; reflexivity). rewrite F in X.
        rewrite <- (firstn_skipn (length l) (bp_queue p)). rewrite nth_error_app1; [exact X|]. apply nth_error_Some. congruence. }
      apply Forall_forall. intros x IX. apply (Permutation_in _ P) in IX.
      assert (IA : In x (firstn (length (removed tr) + length l) (accepted tr))).
      { rewrite A, firstn_app_2, <- F. apply in_app_iff in IX. apply in_app_iff. destruct IX as [IX|IX]; [left; exact IX|right].
        apply in_map_iff in IX. destruct IX as (y & <- & IY). apply filter_In in IY. apply in_map. apply IY. }
      apply In_nth_error in IA. destruct IA as [j J]. assert (JL : j < length (removed tr) + length l).
      { assert (Y : nth_error (firstn (length (removed tr) + length l) (accepted tr)) j <> None) by congruence. apply nth_error_Some in Y. rewrite firstn_length in Y. lia. }
      assert (J2 : nth_error (accepted tr) j = Some x).
      { rewrite <- (firstn_skipn (length (removed tr) + length l) (accepted tr)). rewrite nth_error_app1; [exact J|]. apply nth_error_Some. congruence. }
      rewrite (ticket_at _ _ _ _ T J2). lia. }
    assert (PB : Permutation (called tr ++ [e]) (removed tr ++ map fst (filter snd (set_done i l)))).
    { rewrite S3, P. rewrite <- app_assoc. apply Permutation_app_head. apply Permutation_app_comm. }
    unfold ProcessNewBlock. destruct (AddBlock (bp_chain p) (be_block e)) as [c o].
    destruct o; cbn [fst snd accepted called removed bans offenders flat_map bp_queue bp_batch bp_count app]; rewrite !app_nil_r, ?S1, ?S2, ?BN;
      repeat split; try assumption; intros X; apply N; apply length_zero_iff_nil; rewrite <- S2, X; reflexivity.
  - destruct (bp_batch p) as [l|] eqn:EB; cbn [fst snd]; [|cbn; rewrite !app_nil_r, EB; repeat split; assumption].
    destruct (forallb snd l) eqn:EF; cbn [fst snd]; [|cbn; rewrite !app_nil_r, EB; repeat split; try assumption; apply B].
    destruct (removed_map (firstn (length l) (bp_queue p))) as (R1 & R2 & R3 & R4 & R5). rewrite R1, R2, R3, R4, R5, !app_nil_r.
    destruct B as (N & L & F & P). cbn [bp_queue bp_batch bp_count]. rewrite pop_front_skipn.
    rewrite <- app_assoc, firstn_skipn. repeat split; try assumption. rewrite <- F, P. apply Permutation_app_head.
    assert (Z : filter snd l = l). { clear -EF. induction l as [|[e b] l IH]; [reflexivity|]. cbn in EF |- *. apply andb_prop in EF. destruct EF as [-> EF]. rewrite IH by exact EF. reflexivity. }
    rewrite Z. reflexivity.
  - cbn. rewrite !app_nil_r. repeat split; assumption.
Qed.

Lemma block_run_app p h1 h2 : block_run p (h1 ++ h2) =
  (fst (block_run (fst (block_run p h1)) h2), snd (block_run p h1) ++ snd (block_run (fst (block_run p h1)) h2)).
Proof.
  revert p. induction h1 as [|s h1 IH]; intros p; cbn [app PipeModel.block_run].
  - cbn. destruct (block_run p h2); reflexivity.
  - destruct (block_step p s) as [p1 ev]. rewrite IH. destruct (block_run p1 h1) as [p2 evs]. cbn [fst snd]. rewrite app_assoc. reflexivity.
Qed.
Lemma binv_run h : forall p tr, binv p tr -> binv (fst (block_run p h)) (tr ++ snd (block_run p h)).
Proof.
  induction h as [|s h IH]; intros p tr I; cbn [PipeModel.block_run]; [cbn; rewrite app_nil_r; exact I|].
  pose proof (binv_step p tr s I) as I1. destruct (block_step p s) as [p1 ev]. cbn [fst snd] in I1.
  specialize (IH p1 (tr ++ ev) I1). destruct (block_run p1 h) as [p2 evs]. cbn [fst snd] in *. rewrite app_assoc. exact IH.
Qed.

(** The pipe can always be emptied. *)
Lemma run_tasks (l : list (BlockEntry * bool)) : forall k p, bp_batch p = Some l -> k <= length l ->
  exists l', bp_batch (fst (block_run p (map Run (seq 0 k)))) = Some l' /\ length l' = length l /\ forallb snd (firstn k l') = true /\
    bp_queue (fst (block_run p (map Run (seq 0 k)))) = bp_queue p.
Proof.
  induction k as [|k IH]; intros p E L.
  - exists l. cbn. auto.
  - destruct (IH p E ltac:(lia)) as (l' & E1 & L1 & D1 & Q1). rewrite seq_S, map_app, block_run_app. cbn [map fst]. cbn [PipeModel.block_run plus].
    set (p1 := fst (block_run p (map Run (seq 0 k)))) in *. cbn [PipeModel.block_step]. rewrite E1.
    destruct (nth_error l' k) as [[e b]|] eqn:EN; [|apply nth_error_None in EN; lia].
    assert (FS : forall m : list (BlockEntry * bool), nth_error m k = Some (e, true) -> forallb snd (firstn k m) = true -> forallb snd (firstn (S k) m) = true).
    { clear. intros m. revert k. induction m as [|x m IHm]; intros [|k] N H; cbn in N |- *; try discriminate.
      - injection N as ->. reflexivity.
      - cbn in H. apply andb_prop in H. destruct H as [H1 H2]. rewrite H1. cbn. apply IHm; assumption. }
    destruct b.
    + cbn [fst]. exists l'. repeat split; auto.
    + unfold ProcessNewBlock. destruct (AddBlock (bp_chain p1) (be_block e)) as [c o]. cbn [fst bp_batch bp_queue]. exists (set_done k l').
      destruct (set_done_nth l' k e EN) as (_ & S2 & _). repeat split; auto; [lia|].
      apply FS.
      * clear -EN. revert k EN. induction l' as [|[x b] l' IH]; intros [|k] EN; cbn in EN |- *; try discriminate; [injection EN as ->; reflexivity | apply IH; exact EN].
      * clear -D1. revert k D1. induction l' as [|[x b] l' IH]; intros [|k] D; cbn in D |- *; auto.
        apply andb_prop in D. destruct D as [D1 D2]. rewrite D1. cbn. apply IH. exact D2.
Qed.

Lemma drain : forall n p tr, binv p tr -> length (bp_queue p) <= n ->
  exists h, Forall internal h /\ bp_queue (fst (block_run p h)) = [] /\ bp_batch (fst (block_run p h)) = None.
Proof.
  assert (FIN : forall n, (forall p tr, binv p tr -> length (bp_queue p) <= n -> exists h, Forall internal h /\ bp_queue (fst (block_run p h)) = [] /\ bp_batch (fst (block_run p h)) = None) ->
    forall p tr l, binv p tr -> bp_batch p = Some l -> length (bp_queue p) <= S n ->
    exists h, Forall internal h /\ bp_queue (fst (block_run p h)) = [] /\ bp_batch (fst (block_run p h)) = None).
  { intros n IH p tr l I E L. destruct (run_tasks l (length l) p E ltac:(lia)) as (l' & E1 & L1 & D1 & Q1).
    set (h1 := map (@Run C) (seq 0 (length l)) ++ [Join]). pose proof (binv_run h1 p tr I) as I1.
    assert (Q2 : bp_queue (fst (block_run p h1)) = skipn (length l) (bp_queue p)).
    { unfold h1. rewrite block_run_app. cbn [fst PipeModel.block_run PipeModel.block_step]. rewrite E1. rewrite <- L1, firstn_all in D1. rewrite D1. cbn [fst bp_queue].
      rewrite pop_front_skipn, L1, Q1. reflexivity. }
    assert (LL : 0 < length l). { destruct I as (_ & _ & B & _). rewrite E in B. destruct l; [exfalso; apply (proj1 B); reflexivity | cbn; lia]. }
    destruct (IH _ _ I1) as (h2 & F2 & QQ & BB). { rewrite Q2, skipn_length. lia. }
    exists (h1 ++ h2). rewrite block_run_app. cbn [fst]. repeat split; auto. apply Forall_app. split; [|exact F2].
    unfold h1. apply Forall_app. split; [|repeat constructor]. apply Forall_forall. intros x IX. apply in_map_iff in IX. destruct IX as (y & <- & _). exact Logic.I. }
  induction n as [|n IH]; intros p tr I L.
  - destruct (bp_batch p) as [l|] eqn:E.
    + exfalso. destruct I as (_ & _ & B & _). rewrite E in B. destruct B as (N & _ & F & _). apply N. destruct (bp_queue p); [|cbn in L; lia].
      rewrite firstn_nil in F. destruct l; [reflexivity | discriminate].
    + exists []. cbn. repeat split; auto. destruct (bp_queue p); [reflexivity | cbn in L; lia].
  - destruct (bp_batch p) as [l|] eqn:E; [exact (FIN n IH p tr l I E L)|].
    destruct (bp_queue p) as [|x q] eqn:EQ.
    + exists []. cbn. auto.
    + pose proof (binv_step p tr Copy I) as I1.
      assert (S1 : exists l, bp_batch (fst (block_step p Copy)) = Some l /\ bp_queue (fst (block_step p Copy)) = bp_queue p).
      { cbn [PipeModel.block_step]. rewrite E, EQ, copy_front_firstn by lia. cbn [firstn]. eexists. split; [reflexivity|]. cbn. auto. }
      destruct S1 as (l & E1 & Q1). destruct (FIN n IH _ _ l I1 E1) as (h & F & A & B). { rewrite Q1, EQ. exact L. }
      exists (Copy :: h). cbn [PipeModel.block_run]. destruct (block_step p Copy) as [p1 ev]. cbn [fst] in *. destruct (block_run p1 h). cbn [fst] in *. repeat split; auto. constructor; [exact Logic.I | exact F].
Qed.

Lemma accepted_nodup p tr : binv p tr -> NoDup (accepted tr).
Proof. intros (_ & T & _). apply (NoDup_map_inv be_ticket). rewrite T. apply seq_NoDup. Qed.

Lemma queue_waiting p tr e : binv p tr -> (In e (bp_queue p) <-> waiting tr e).
Proof.
  intros I. pose proof (accepted_nodup p tr I) as ND. destruct I as (A & _). unfold waiting. rewrite A in *. split.
  - intros H. split; [apply in_app_iff; auto|]. intros R. clear -ND H R. induction (removed tr) as [|x l IH]; [exact R|].
    cbn [app] in ND. inversion ND as [|? ? NI ND']; subst. destruct R as [->|R]; [apply NI, in_app_iff; auto | exact (IH ND' R)].
  - intros [H N]. apply in_app_iff in H. tauto.
Qed.
End BLOCKS.

Section TRANSACTIONS.
Context {C : Type}.
Variable has_tip : C -> bool.
Variable pool_add : C -> Tx -> PoolType -> C * PoolStatus.
Local Notation tx_step := (tx_step has_tip pool_add).
Local Notation tx_run := (tx_run has_tip pool_add).

Definition tinv (p : TxPipe C) (tr : list TxEvent) : Prop :=
  match tp_current p with
  | Some (e, true) => exists q, tp_queue p = e :: q /\ tx_accepted tr = tx_called tr ++ q
  | Some (e, false) => (exists q, tp_queue p = e :: q) /\ tx_accepted tr = tx_called tr ++ tp_queue p
  | None => tx_accepted tr = tx_called tr ++ tp_queue p
  end /\ broadcasts tr = to_announce tr /\ tx_bans tr = tx_offenders tr.

Lemma tev_app tr ev : tx_accepted (tr ++ ev) = tx_accepted tr ++ tx_accepted ev /\ tx_called (tr ++ ev) = tx_called tr ++ tx_called ev /\
  broadcasts (tr ++ ev) = broadcasts tr ++ broadcasts ev /\ to_announce (tr ++ ev) = to_announce tr ++ to_announce ev /\
  tx_bans (tr ++ ev) = tx_bans tr ++ tx_bans ev /\ tx_offenders (tr ++ ev) = tx_offenders tr ++ tx_offenders ev.
Proof. repeat split; apply flat_map_app. Qed.
Lemma announce_map ks x : let ev := map (fun k => Broadcast k x) ks in
  tx_accepted ev = [] /\ tx_called ev = [] /\ broadcasts ev = map (fun k => (k, x)) ks /\ to_announce ev = [] /\ tx_bans ev = [] /\ tx_offenders ev = [].
Proof.
  cbv zeta. unfold tx_accepted, tx_called, broadcasts, to_announce, tx_bans, tx_offenders.
  induction ks as [|k ks (A & B & D & E & F & G)]; cbn; auto 10. rewrite A, B, D, E, F, G. auto 10.
Qed.

Lemma tinv_step p tr s : tinv p tr -> tinv (fst (tx_step p s)) (tr ++ snd (tx_step p s)).
Proof.
  intros (A & B & D). destruct (tev_app tr (snd (tx_step p s))) as (E1 & E2 & E3 & E4 & E5 & E6).
  unfold tinv. rewrite E1, E2, E3, E4, E5, E6, B, D. clear E1 E2 E3 E4 E5 E6.
  destruct s as [cn peer t pt| | | |c]; cbn [PipeModel.tx_step].
  - unfold push_back_unique. destruct (existsb _ (tp_queue p)); cbn [fst snd]; cbn; rewrite !app_nil_r; [auto|]. split; [|auto].
    destruct (tp_current p) as [[e [|]]|].
    + destruct A as (q & Q & A). exists (q ++ [mkTE cn peer t pt]). rewrite Q, A, app_assoc. auto.
    + destruct A as [[q Q] A]. split; [exists (q ++ [mkTE cn peer t pt]); rewrite Q; reflexivity|]. rewrite A, app_assoc. reflexivity.
    + rewrite A, app_assoc. reflexivity.
  - destruct (tp_current p) as [[e b]|] eqn:EC; cbn [fst snd].
    + cbn. rewrite !app_nil_r, EC. auto.
    + destruct (tp_queue p) as [|e q] eqn:EQ; cbn [fst snd]; cbn; rewrite !app_nil_r, ?EC, ?EQ; [auto|]. split; [|auto]. split; [eauto|]. exact A.
  - destruct (tp_current p) as [[e [|]]|] eqn:EC; cbn [fst snd]; try (cbn; rewrite !app_nil_r, EC; auto).
    destruct A as [[q Q] A]. destruct (AddTransaction has_tip pool_add (tp_chain p) (te_tx e) (te_pool e)) as [c st]. cbn [fst snd tp_current tp_queue].
    assert (A2 : exists q0, tp_queue p = e :: q0 /\ tx_accepted tr = (tx_called tr ++ [e]) ++ q0) by (exists q; rewrite A, Q, <- app_assoc; auto).
    destruct e as [cn peer t pt]. destruct st, pt; cbn [te_connection te_tx te_pool te_peer];
      try (cbn; rewrite ?app_nil_r; repeat split; auto; fail).
    destruct (announce_map (t_kernels t) cn) as (F1 & F2 & F3 & F4 & F5 & F6).
    unfold tx_accepted, tx_called, broadcasts, to_announce, tx_bans, tx_offenders in *. cbn [flat_map]. rewrite F1, F2, F3, F4, F5, F6.
    cbn [app]. rewrite ?app_nil_r. repeat split; auto.
  - destruct (tp_current p) as [[e [|]]|] eqn:EC; cbn [fst snd]; try (cbn; rewrite !app_nil_r, EC; auto).
    destruct A as (q & Q & A). cbn. rewrite !app_nil_r, Q. auto.
  - cbn. rewrite !app_nil_r. auto.
Qed.
Lemma tinv_run h : forall p tr, tinv p tr -> tinv (fst (tx_run p h)) (tr ++ snd (tx_run p h)).
Proof.
  induction h as [|s h IH]; intros p tr I; cbn [PipeModel.tx_run]; [cbn; rewrite app_nil_r; exact I|].
  pose proof (tinv_step p tr s I) as I1. destruct (tx_step p s) as [p1 ev]. cbn [fst snd] in I1.
  specialize (IH p1 (tr ++ ev) I1). destruct (tx_run p1 h) as [p2 evs]. cbn [fst snd] in *. rewrite app_assoc. exact IH.
Qed.
End TRANSACTIONS.

Lemma called_outcome {C} (AddBlock : C -> Block -> C * Outcome) h : forall p e o, In (Called e o) (snd (block_run AddBlock p h)) ->
  exists c, snd (AddBlock c (be_block e)) = o.
Proof.
  induction h as [|s h IH]; intros p e o; cbn [block_run]; [intros []|].
  destruct (block_step AddBlock p s) as [p1 ev] eqn:E. destruct (block_run AddBlock p1 h) as [p2 evs] eqn:ER. cbn [snd]. intros IN.
  apply in_app_iff in IN. destruct IN as [IN|IN]; [|apply (IH p1); rewrite ER; exact IN]. clear IH ER.
  destruct s as [peer b| |i| |c]; cbn [block_step] in E.
  - destruct (push_back_unique same_block _ (bp_queue p)) as [[|] q]; injection E as _ <-; destruct IN as [IN|[]]; discriminate.
  - destruct (bp_batch p), (copy_front 8 (bp_queue p)); injection E as _ <-; destruct IN.
  - destruct (bp_batch p) as [l|]; [|injection E as _ <-; destruct IN].
    destruct (nth_error l i) as [[x [|]]|]; try (injection E as _ <-; destruct IN; fail).
    unfold ProcessNewBlock in E. destruct (AddBlock (bp_chain p) (be_block x)) as [c o'] eqn:EA.
    assert (X : e = x /\ o = o') by (destruct o'; injection E as _ <-; cbn in IN; intuition congruence).
    destruct X as [-> ->]. exists (bp_chain p). rewrite EA. reflexivity.
  - destruct (bp_batch p) as [l|]; [|injection E as _ <-; destruct IN]. destruct (forallb snd l); injection E as _ <-; [|destruct IN].
    apply in_map_iff in IN. destruct IN as (y & Y & _). discriminate.
  - injection E as _ <-. destruct IN.
Qed.

Lemma tx_called_outcome {C} has_tip (pool_add : C -> Tx -> PoolType -> C * PoolStatus) h : forall p e st, In (TxCalled e st) (snd (tx_run has_tip pool_add p h)) ->
  exists c, snd (AddTransaction has_tip pool_add c (te_tx e) (te_pool e)) = st.
Proof.
  induction h as [|s h IH]; intros p e st; cbn [tx_run]; [intros []|].
  destruct (tx_step has_tip pool_add p s) as [p1 ev] eqn:E. destruct (tx_run has_tip pool_add p1 h) as [p2 evs] eqn:ER. cbn [snd]. intros IN.
  apply in_app_iff in IN. destruct IN as [IN|IN]; [|apply (IH p1); rewrite ER; exact IN]. clear IH ER.
  destruct s as [cn peer t pt| | | |c]; cbn [tx_step] in E.
  - destruct (push_back_unique same_tx _ (tp_queue p)) as [[|] q]; injection E as _ <-; destruct IN as [IN|[]]; discriminate.
  - destruct (tp_current p), (tp_queue p); injection E as _ <-; destruct IN.
  - destruct (tp_current p) as [[x [|]]|]; try (injection E as _ <-; destruct IN; fail).
    destruct (AddTransaction has_tip pool_add (tp_chain p) (te_tx x) (te_pool x)) as [c s] eqn:EA.
    assert (X : e = x /\ st = s).
    { injection E as _ <-. destruct IN as [IN|IN]; [injection IN as -> ->; auto|]. exfalso.
      destruct s, (te_pool x); try (destruct IN as [IN|[]]; discriminate); try destruct IN. apply in_map_iff in IN. destruct IN as (y & Y & _). discriminate. }
    destruct X as [-> ->]. exists (tp_chain p). rewrite EA. reflexivity.
  - destruct (tp_current p) as [[x [|]]|]; injection E as _ <-; destruct IN.
  - injection E as _ <-. destruct IN.
Qed.

Lemma tx_run_app {C} has_tip (pool_add : C -> Tx -> PoolType -> C * PoolStatus) p h1 h2 : tx_run has_tip pool_add p (h1 ++ h2) =
  (fst (tx_run has_tip pool_add (fst (tx_run has_tip pool_add p h1)) h2),
   snd (tx_run has_tip pool_add p h1) ++ snd (tx_run has_tip pool_add (fst (tx_run has_tip pool_add p h1)) h2)).
Proof.
  revert p. induction h1 as [|s h1 IH]; intros p; cbn [app tx_run].
  - cbn. destruct (tx_run has_tip pool_add p h2); reflexivity.
  - destruct (tx_step has_tip pool_add p s) as [p1 ev]. rewrite IH. destruct (tx_run has_tip pool_add p1 h1) as [p2 evs]. cbn [fst snd]. rewrite app_assoc. reflexivity.
Qed.

(** Rounds of the thread of transactions. *)
Definition tx_rounds {C} (n : nat) : list (TxStep C) := flat_map (fun _ => [TxCopy; TxAdd; TxPop]) (seq 0 n).
Lemma tx_round_idle {C} has_tip (pool_add : C -> Tx -> PoolType -> C * PoolStatus) p tr : tinv p tr ->
  tp_current (fst (tx_run has_tip pool_add p [TxCopy; TxAdd; TxPop])) = None /\
  tp_queue (fst (tx_run has_tip pool_add p [TxCopy; TxAdd; TxPop])) = tl (tp_queue p).
Proof.
  destruct p as [q cur c]. unfold tinv. cbn [tp_current tp_queue]. intros (A & _). destruct cur as [[e [|]]|].
  - destruct A as (q' & -> & _). split; reflexivity.
  - destruct A as [(q' & ->) _]. cbn. destruct (AddTransaction _ _ _ _ _). split; reflexivity.
  - destruct q as [|e q]; [split; reflexivity|]. cbn. destruct (AddTransaction _ _ _ _ _). split; reflexivity.
Qed.
Lemma tx_drain {C} has_tip (pool_add : C -> Tx -> PoolType -> C * PoolStatus) : forall n p tr, tinv p tr -> length (tp_queue p) <= n -> 0 < n ->
  tp_queue (fst (tx_run has_tip pool_add p (tx_rounds n))) = [] /\ tp_current (fst (tx_run has_tip pool_add p (tx_rounds n))) = None.
Proof.
  assert (R : forall m, @tx_rounds C (S m) = [TxCopy; TxAdd; TxPop] ++ tx_rounds m).
  { intros m. unfold tx_rounds. cbn [seq flat_map app]. do 3 f_equal. rewrite <- seq_shift, flat_map_concat_map, map_map, <- flat_map_concat_map. reflexivity. }
  induction n as [|n IH]; intros p tr I L Z; [lia|]. rewrite R, tx_run_app. cbn [fst].
  destruct (tx_round_idle has_tip pool_add p tr I) as [E1 E2]. pose proof (tinv_run has_tip pool_add [TxCopy; TxAdd; TxPop] p tr I) as I1.
  set (p1 := fst (tx_run has_tip pool_add p [TxCopy; TxAdd; TxPop])) in *.
  assert (L1 : length (tp_queue p1) <= n) by (rewrite E2; destruct (tp_queue p); cbn in L |- *; lia).
  destruct n as [|n].
  - cbn. split; [destruct (tp_queue p1); [reflexivity | cbn in L1; lia] | exact E1].
  - apply (IH p1 _ I1); lia.
Qed.
