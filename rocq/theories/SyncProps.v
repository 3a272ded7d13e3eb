(** C58: synchronization. *)
From Coq Require Import Permutation.
From Verif Require Import Base Bytes ConsensusModel StateModel SyncModel SyncSpec SyncProofs.
Local Open Scope N_scope.

(** * Choosing a peer *)
(** The peer that is asked is one with the most work; each of them may be chosen; there is none only if no peer has told its height. *)
Theorem C58_most_work l : (forall r c, GetMostWorkPeer r l = Some c -> best_peer l c) /\ (forall c, best_peer l c -> exists r, GetMostWorkPeer r l = Some c) /\
  (forall r, GetMostWorkPeer r l = None -> forall c, In c l -> c_height c = 0).
Proof.
  split; [intros r c; apply most_work_peer|]. split; [|intros r; apply most_work_none].
  intros c B. apply most_work_iff in B. apply In_nth_error in B. destruct B as (r & B). exists r. unfold GetMostWorkPeer. rewrite Nat.mod_small; [exact B|]. apply nth_error_Some. congruence.
Qed.

(** * The status *)
Definition small (x : N) : Prop := x < 2 ^ 63.
Lemma behind once own network : small own -> ((add64 own 5 <=? network) || (negb once && (own <? network)))%bool = false <-> caught_up once own network.
Proof.
  intros H. unfold caught_up, small, add64 in *. rewrite N.mod_small by (assert (2 ^ 63 + 5 < W64) by reflexivity; lia).
  destruct once; cbn [negb andb]; rewrite ?orb_false_r; [rewrite N.leb_gt; reflexivity|]. rewrite orb_false_iff, N.leb_gt, N.ltb_ge. split; [tauto|]. intros; split; lia.
Qed.
Lemma headers_idle w s once h : small (m_headerHeight s) -> 0 < m_networkHeight s -> caught_up once (m_headerHeight s) (m_networkHeight s) ->
  SyncHeaders w s (negb once) h = (false, mkHS (hs_timeout h) (hs_lastHeight h) None false, []).
Proof. intros A B C. unfold SyncHeaders. destruct (N.eqb_spec (m_networkHeight s) 0); [lia|]. rewrite (proj2 (behind once _ _ A) C). reflexivity. Qed.
Lemma headers_busy w s once h : small (m_headerHeight s) -> ~ (0 < m_networkHeight s /\ caught_up once (m_headerHeight s) (m_networkHeight s)) -> fst (fst (SyncHeaders w s (negb once) h)) = true.
Proof.
  intros A B. unfold SyncHeaders. destruct (N.eqb_spec (m_networkHeight s) 0); [reflexivity|].
  destruct (_ || _)%bool eqn:E; [|exfalso; apply B; split; [lia|exact (proj1 (behind once _ _ A) E)]].
  destruct (IsHeaderSyncDue w s h) as ((d, h1), a1). destruct d; [destruct (RequestHeaders w s h1)|]; reflexivity.
Qed.
Lemma state_idle w s x : CUT_THROUGH_HORIZON <= m_headerHeight s -> small (m_headerHeight s) -> m_headerHeight s - CUT_THROUGH_HORIZON < m_blockHeight s -> m_syncStatus s <> TXHASHSET_SYNC_FAILED ->
  SyncState w s x = Ret (false, s, x, []).
Proof.
  intros A B C D. assert (E : sub64 (m_headerHeight s) CUT_THROUGH_HORIZON = m_headerHeight s - CUT_THROUGH_HORIZON).
  { unfold sub64, small, CUT_THROUGH_HORIZON in *. replace (m_headerHeight s + (W64 - 10080)) with (m_headerHeight s - 10080 + 1 * W64) by lia. rewrite N.mod_add by discriminate. apply N.mod_small. assert (2 ^ 63 < W64) by reflexivity. lia. }
  assert (F : IsStateSyncDue w s x = false).
  { unfold IsStateSyncDue. rewrite E, (proj2 (N.ltb_ge _ _) A), (proj2 (N.ltb_lt _ _) C). destruct (m_syncStatus s); try reflexivity. contradiction. }
  unfold SyncState. rewrite F, E. replace (m_blockHeight s <? _) with false by (symmetry; apply N.ltb_ge; lia). reflexivity.
Qed.
Lemma busy_status s : m_syncStatus (match m_syncStatus s with SYNCING_TXHASHSET | PROCESSING_TXHASHSET => s | _ => UpdateStatus SYNCING_HEADERS s end) <> NOT_SYNCING.
Proof. destruct s as [[] ? ? ? ? ?]; discriminate. Qed.
Lemma waiting_status s : m_syncStatus (match m_syncStatus s with PROCESSING_TXHASHSET => s | _ => UpdateStatus WAITING_FOR_PEERS s end) <> NOT_SYNCING.
Proof. destruct s as [[] ? ? ? ? ?]; discriminate. Qed.
(** What a turn works with. *)
Definition seen (w : world) (y : Syncer) : SyncStatus := UpdateSyncStatus w (y_status y).
(** On a chain of a week or more, with the blocks less than a week behind the headers: the node says that it is synchronized exactly when it
    has enough peers, one of them has told its height, and both headers and blocks have caught up with the most-work peer. *)
Theorem C58_synced_partial w y y' a : sync_turn w y = Ret (y', a) -> small (w_headerHeight w) -> small (w_blockHeight w) ->
  CUT_THROUGH_HORIZON <= w_headerHeight w -> w_headerHeight w - CUT_THROUGH_HORIZON < w_blockHeight w -> m_syncStatus (seen w y) <> TXHASHSET_SYNC_FAILED ->
  (m_syncStatus (y_status y') = NOT_SYNCING <->
   w_minPeers w <= N.of_nat (length (w_conns w)) /\ 0 < m_networkHeight (seen w y) /\
   caught_up (y_headersSynced y) (w_headerHeight w) (m_networkHeight (seen w y)) /\ caught_up (y_blocksSynced y) (w_blockHeight w) (m_networkHeight (seen w y))).
Proof.
  intros E A B C D F. unfold sync_turn in E. fold (seen w y) in E. change (m_numActiveConnections (seen w y)) with (N.of_nat (length (w_conns w))) in E.
  destruct (N.leb_spec (w_minPeers w) (N.of_nat (length (w_conns w)))) as [L|L].
  2: { injection E as <- <-. cbn [y_status]. split; [|lia]. intros X. destruct (waiting_status _ X). }
  destruct (SyncHeaders w (seen w y) (negb (y_headersSynced y)) (y_headers y)) as ((sy, h), a1) eqn:Eh.
  destruct (N.ltb_spec 0 (m_networkHeight (seen w y))) as [Nw|Nw].
  2: { assert (sy = true) as -> by (change sy with (fst (fst (sy, h, a1))); rewrite <- Eh; apply headers_busy; [exact A|lia]).
       injection E as <- <-. cbn [y_status]. split; [|lia]. intros X. destruct (busy_status _ X). }
  destruct sy.
  - injection E as <- <-. cbn [y_status]. split; [intros X; destruct (busy_status _ X)|].
    intros (_ & _ & X & _). rewrite headers_idle in Eh by assumption. discriminate.
  - assert (Ch : caught_up (y_headersSynced y) (w_headerHeight w) (m_networkHeight (seen w y))).
    { unfold SyncHeaders in Eh. destruct (N.eqb_spec (m_networkHeight (seen w y)) 0); [discriminate|]. destruct (_ || _)%bool eqn:Q in Eh; [|exact (proj1 (behind _ _ _ A) Q)].
      destruct (IsHeaderSyncDue w (seen w y) (y_headers y)) as ((d, h1), a2). destruct d; [destruct (RequestHeaders w (seen w y) h1)|]; discriminate. }
    rewrite (state_idle w (seen w y) (y_state y) C A D F) in E. cbn [obind] in E. unfold SyncBlocks in E.
    change (m_blockHeight (seen w y)) with (w_blockHeight w) in E.
    destruct (_ || _)%bool eqn:Q in E.
    + assert (Nc : ~ caught_up (y_blocksSynced y) (w_blockHeight w) (m_networkHeight (seen w y))).
      { intros X. apply (behind _ _ _ B) in X. rewrite X in Q. discriminate. }
      destruct (IsBlockSyncDue w (seen w y) (y_blocks y)) as (d, b1). destruct d; [destruct (RequestBlocks w b1) as (b2, a2)|]; injection E as <- <-; cbn; (split; [discriminate|tauto]).
    + apply (behind _ _ _ B) in Q. injection E as <- <-. cbn. tauto.
Qed.
Lemma headers_no_blocks w s startup h sy h' a : SyncHeaders w s startup h = (sy, h', a) -> forall p x, ~ In (ABlock p x) a.
Proof.
  intros Eh. unfold SyncHeaders in Eh. destruct (_ =? 0) in Eh; [injection Eh as _ _ <-; intros p x []|]. destruct (_ || _)%bool in Eh; [|injection Eh as _ _ <-; intros p x []].
  assert (G1 : forall d h1 a2, IsHeaderSyncDue w s h = (d, h1, a2) -> forall p x, ~ In (ABlock p x) a2).
  { unfold IsHeaderSyncDue. intros d h1 a2 X. repeat match type of X with context [match ?z with _ => _ end] => destruct z end; injection X as <- <- <-; intros p x Y; cbn in Y; intuition discriminate. }
  assert (G2 : forall h1 h2 a2, RequestHeaders w s h1 = (h2, a2) -> forall p x, ~ In (ABlock p x) a2).
  { unfold RequestHeaders. intros h1 h2 a2 X. destruct (hs_peer h1) as [q|]; [destruct (can_send (w_conns w) q)|]; [|destruct (GetMostWorkPeer (w_random w) (w_conns w))..]; injection X as <- <-; intros p x Y; cbn in Y; intuition discriminate. }
  destruct (IsHeaderSyncDue w s h) as ((d, h1), a2) eqn:E1. destruct d.
  - destruct (RequestHeaders w s h1) as (h2, a3) eqn:E2. injection Eh as _ _ <-. intros p x X. apply in_app_or in X. destruct X as [X|X]; [exact (G1 _ _ _ eq_refl p x X)|exact (G2 _ _ _ E2 p x X)].
  - injection Eh as _ _ <-. exact (G1 _ _ _ eq_refl).
Qed.
Lemma no_block_asked a : (forall p x, ~ In (ABlock p x) a) -> asked a = [].
Proof. induction a as [|c a IH]; intros H; [reflexivity|]. destruct c; cbn; try (apply IH; intros p x X; exact (H p x (or_intror X))). destruct (H addr hash). left. reflexivity. Qed.
(** On a shorter chain, the node never says so and never asks for a block, whatever the peers and the heights are. *)
Lemma short_turn w y y' a : sync_turn w y = Ret (y', a) -> w_headerHeight w < CUT_THROUGH_HORIZON -> small (w_blockHeight w) -> m_syncStatus (seen w y) <> NOT_SYNCING ->
  asked a = [] /\ m_syncStatus (y_status y') <> NOT_SYNCING.
Proof.
  intros E A B C. unfold sync_turn in E. fold (seen w y) in E.
  destruct (_ <=? _).
  2: { injection E as <- <-. split; [reflexivity|]. exact (waiting_status (seen w y)). }
  destruct (SyncHeaders w (seen w y) (negb (y_headersSynced y)) (y_headers y)) as ((sy, h), a1) eqn:Eh. destruct sy.
  - injection E as <- <-. split.
    + exact (no_block_asked _ (headers_no_blocks _ _ _ _ _ _ _ Eh)).
    + exact (busy_status (seen w y)).
  - unfold SyncState in E. destruct (IsStateSyncDue w (seen w y) (y_state y)).
    + unfold RequestState in E. destruct (w_headerAt w _); [|discriminate]. destruct (GetMostWorkPeer _ _); cbn in E; injection E as <- <-; (split; [destruct (ss_peer (y_state y)); reflexivity|discriminate]).
    + cbn [obind] in E. change (m_blockHeight (seen w y)) with (w_blockHeight w) in E. change (m_headerHeight (seen w y)) with (w_headerHeight w) in E.
      assert (T : (w_blockHeight w <? sub64 (w_headerHeight w) CUT_THROUGH_HORIZON) = true).
      { apply N.ltb_lt. unfold sub64, small, CUT_THROUGH_HORIZON in *. rewrite N.mod_small by lia. assert (2 ^ 63 < W64 - 10080) by reflexivity. lia. }
      rewrite T in E. injection E as <- <-. split; [reflexivity|exact C].
Qed.
Theorem C58_short_chain_refuted : forall ws y y' a, sync_turns ws y = Ret (y', a) -> m_syncStatus (y_status y) <> NOT_SYNCING ->
  Forall (fun w => w_headerHeight w < CUT_THROUGH_HORIZON /\ small (w_blockHeight w) /\ w_status w <> Some NOT_SYNCING) ws ->
  asked a = [] /\ m_syncStatus (y_status y') <> NOT_SYNCING.
Proof.
  induction ws as [|w ws IH]; intros y y' a E N0 F; [injection E as <- <-; split; [reflexivity|exact N0]|]. inversion F as [|? ? (F1 & F2 & F3) F4]; subst. cbn in E.
  destruct (sync_turn w y) as [(y1, a1)| |] eqn:E1; try discriminate. cbn [obind fst snd] in E. destruct (sync_turns ws y1) as [(y2, a2)| |] eqn:E2; try discriminate. injection E as <- <-.
  destruct (short_turn _ _ _ _ E1 F1 F2) as (A1 & A2).
  { unfold seen, UpdateSyncStatus. cbn. destruct (w_status w); [congruence|exact N0]. }
  destruct (IH _ _ _ E2 A2 F4) as (B1 & B2). cbn. rewrite asked_app, A1, B1. split; [reflexivity|exact B2].
Qed.

(** * Blocks *)
Lemma turn_blocks w y y' a : sync_turn w y = Ret (y', a) -> (y_blocks y' = y_blocks y /\ forall p x, ~ In (ABlock p x) a) \/
  exists sy, SyncBlocks w (seen w y) (negb (y_blocksSynced y)) (y_blocks y) = (sy, y_blocks y', a).
Proof.
  intros E. unfold sync_turn in E. fold (seen w y) in E. destruct (_ <=? _); [|injection E as <- <-; left; split; [reflexivity|intros p x []]].
  destruct (SyncHeaders w (seen w y) (negb (y_headersSynced y)) (y_headers y)) as ((sy, h), a1) eqn:Eh. destruct sy.
  - injection E as <- <-. left. split; [reflexivity|]. exact (headers_no_blocks _ _ _ _ _ _ _ Eh).
  - destruct (SyncState w (seen w y) (y_state y)) as [(((sy, s1), x1), a2)| |] eqn:Es; try discriminate. cbn [obind] in E. destruct sy.
    + injection E as <- <-. left. split; [reflexivity|]. unfold SyncState in Es. destruct (IsStateSyncDue _ _ _); [|injection Es as _ _ _ <-; intros p x []].
      unfold RequestState in Es. destruct (w_headerAt w _); [|discriminate]. destruct (GetMostWorkPeer _ _); cbn in Es; injection Es as _ _ <-; destruct (ss_peer (y_state y)); intros p x X; cbn in X; intuition discriminate.
    + assert (s1 = seen w y) as ->.
      { unfold SyncState in Es. destruct (IsStateSyncDue _ _ _); [destruct (RequestState _ _ _) as [r| |]; discriminate|]. injection Es as _ <- _ _. reflexivity. }
      right. destruct (SyncBlocks w (seen w y) (negb (y_blocksSynced y)) (y_blocks y)) as ((sy, b1), a3) eqn:Eb. exists sy. destruct sy; injection E as <- <-; reflexivity.
Qed.
Lemma in_firstn {A} k (l : list A) x : In x (firstn k l) -> In x l.
Proof. intros X. rewrite <- (firstn_skipn k l). apply in_or_app. left. exact X. Qed.
Lemma nodup_firstn {A B} (f : A -> B) k l : NoDup (map f l) -> NoDup (map f (firstn k l)).
Proof.
  intros H. revert k. induction l as [|x l IH]; intros [|k]; cbn; try constructor; cbn in H; apply NoDup_cons_iff in H; destruct H as (H1 & H2); [|exact (IH H2 k)].
  intros C. apply H1. apply in_map_iff in C. destruct C as (z & Z1 & Z2). apply in_map_iff. exists z. split; [exact Z1|exact (in_firstn _ _ _ Z2)].
Qed.
Lemma nodup_map_on {A B} (f : A -> B) l : (forall x y, In x l -> In y l -> f x = f y -> x = y) -> NoDup l -> NoDup (map f l).
Proof.
  intros Hf N0. induction N0 as [|x l Nx N0 IH]; [constructor|]. cbn. constructor.
  - intros C. apply in_map_iff in C. destruct C as (y & C1 & C2). apply Nx. rewrite <- (Hf y x); [exact C2|right; exact C2|left; reflexivity|exact C1].
  - apply IH. intros y z Y Z. apply Hf; right; assumption.
Qed.
Lemma in_asked a : forall x, In x (asked a) <-> exists p, In (ABlock p x) a.
Proof.
  induction a as [|c a IH]; intros x; [split; [intros []|intros (p & [])]|]. destruct c; cbn; rewrite ?IH; (split; [intros X|intros (p & X)]).
  all: try (destruct X as (p & X); exists p; right; exact X). all: try (destruct X as [X|X]; [discriminate|exists p; exact X]).
  - destruct X as [<-|(p & X)]; [exists addr; left; reflexivity|exists p; right; exact X].
  - destruct X as [X|X]; [injection X as _ <-; left; reflexivity|right; exists p; exact X].
Qed.
(** The requests that are still open when a turn begins: those for heights from the last known height up to the current one are dropped. *)
Definition open_requests (w : world) (b : BlockSyncer) : requests := filter (fun e => negb ((bs_lastHeight b <=? fst e) && (fst e <=? w_blockHeight w))%bool) (bs_requested b).
Lemma blocks_spec w s st b sy b' a : m_blockHeight s = w_blockHeight w -> NoDup (map fst (w_needed w)) -> SyncBlocks w s st b = (sy, b', a) ->
  exists q1 again a1 a2, a = a1 ++ a2 /\ asked a1 = map snd again /\ asked a2 = map snd q1 /\ NoDup (map fst (q1 ++ again)) /\
    (forall x, In x (q1 ++ again) -> wanted w (w_needed w) (open_requests w b) (bs_slow b') x) /\
    (forall p x, In (ABlock p x) a1 -> can_send (w_conns w) p = true /\ exists h r, rfind (open_requests w b) h = Some r /\ rq_peer r = p) /\
    (forall p x, In (ABlock p x) a2 -> In p (GetMostWorkPeers (w_random w) (w_conns w))) /\
    (forall p, In (ABan p) a -> w_banned w p = false /\ exists h r, In h (map fst (w_needed w)) /\ rfind (open_requests w b) h = Some r /\ rq_peer r = p /\ (rq_retried r = true \/ can_send (w_conns w) p = false)) /\
    (NoDup (map c_addr (w_conns w)) -> forall p, asked_from p a2 <= 16)%nat /\
    (sy = true -> GetMostWorkPeers (w_random w) (w_conns w) <> [] -> forall height hash, In (height, hash) (firstn 15 (w_needed w)) ->
       w_processing w hash = true \/ w_hasBlock w height hash = true \/ outstanding w (bs_requested b') height).
Proof.
  intros Hs Nd E. unfold SyncBlocks, IsBlockSyncDue in E. rewrite Hs in E. fold (open_requests w b) in E. set (m0 := open_requests w b) in *.
  assert (None_ : forall sy0 b0, b0 = b' -> a = [] -> (sy0 = true -> GetMostWorkPeers (w_random w) (w_conns w) <> [] -> forall height hash, In (height, hash) (firstn 15 (w_needed w)) ->
       w_processing w hash = true \/ w_hasBlock w height hash = true \/ outstanding w (bs_requested b') height) -> sy = sy0 -> exists q1 again a1 a2, a = a1 ++ a2 /\ asked a1 = map snd again /\ asked a2 = map snd q1 /\ NoDup (map fst (q1 ++ again)) /\
    (forall x, In x (q1 ++ again) -> wanted w (w_needed w) m0 (bs_slow b') x) /\
    (forall p x, In (ABlock p x) a1 -> can_send (w_conns w) p = true /\ exists h r, rfind m0 h = Some r /\ rq_peer r = p) /\
    (forall p x, In (ABlock p x) a2 -> In p (GetMostWorkPeers (w_random w) (w_conns w))) /\
    (forall p, In (ABan p) a -> w_banned w p = false /\ exists h r, In h (map fst (w_needed w)) /\ rfind m0 h = Some r /\ rq_peer r = p /\ (rq_retried r = true \/ can_send (w_conns w) p = false)) /\
    (NoDup (map c_addr (w_conns w)) -> forall p, asked_from p a2 <= 16)%nat /\
    (sy = true -> GetMostWorkPeers (w_random w) (w_conns w) <> [] -> forall height hash, In (height, hash) (firstn 15 (w_needed w)) ->
       w_processing w hash = true \/ w_hasBlock w height hash = true \/ outstanding w (bs_requested b') height)).
  { intros sy0 b0 _ -> C ->. exists [], [], [], []. split; [reflexivity|]. split; [reflexivity|]. split; [reflexivity|]. split; [constructor|]. split; [intros x []|]. split; [intros p x []|]. split; [intros p x []|]. split; [intros p []|]. split; [intros _ p; cbn; lia|exact C]. }
  destruct (_ || _)%bool in E; [|injection E as <- <- <-; apply (None_ false b); try reflexivity; discriminate].
  destruct (_ || _)%bool eqn:Due in E.
  2: { injection E as <- <- <-. apply (None_ true (mkBS (w_blockHeight w) m0 (bs_slow b))); try reflexivity. intros _ _. apply orb_false_iff in Due. destruct Due as (_ & Due). cbn [bs_requested bs_slow] in *.
       revert Due. generalize (firstn 15 (w_needed w)). induction l as [|(h, x) l IH]; intros Due height hash I0; [destruct I0|]. cbn [missing_request bs_requested bs_slow] in Due.
       destruct (rfind m0 h) as [r|] eqn:R; [|discriminate]. destruct (IsSlowPeer _ _); [discriminate|]. destruct (_ && _)%bool eqn:T in Due; [discriminate|].
       destruct I0 as [I0|I0]; [|exact (IH Due height hash I0)]. injection I0 as -> ->. apply andb_false_iff in T. destruct T as [T|T].
       - right. right. exists r. split; [exact R|]. apply Z.ltb_ge. exact T.
       - left. apply negb_false_iff. exact T. }
  destruct (RequestBlocks w (mkBS (w_blockHeight w) m0 (bs_slow b))) as (b1, a') eqn:Rq. injection E as <- <- <-. unfold RequestBlocks in Rq.
  set (peers := GetMostWorkPeers (w_random w) (w_conns w)) in *. destruct peers as [|p0 ps] eqn:Ep.
  { injection Rq as <- <-. apply (None_ true (mkBS (w_blockHeight w) m0 (bs_slow b))); try reflexivity. intros _ C. contradiction. }
  rewrite <- Ep in Rq. assert (Lp : (0 < length peers)%nat) by (rewrite Ep; cbn; lia). set (k := (16 * length peers)%nat) in *.
  set (l := firstn (2 * k) (w_needed w)) in *. pose proof (collect_run w k l (mkBS (w_blockHeight w) m0 (bs_slow b)) [] [] []) as R.
  destruct (collect w k l (mkBS (w_blockHeight w) m0 (bs_slow b)) [] [] []) as ((b2, q2), a1) eqn:Cl.
  destruct (run_asks _ _ _ _ _ _ _ _ (nodup_firstn fst (2 * k) _ Nd) R) as (q1 & a1' & ag & E1 & E2 & L & N1 & W1 & K & B1 & B2 & B3).
  destruct (run_covers _ _ _ _ _ _ _ _ R) as (dn & rest & D0 & D1 & _ & D3 & D4).
  cbn [fst snd app bs_requested bs_slow] in *. subst q2 a1'. 
  assert (Hk : (0 < k)%nat) by (unfold k; lia). specialize (L Hk).
  pose proof (send_outstanding w peers q1 (w_random w mod length peers)%nat 0 (bs_requested b2) a1) as So.
  destruct (send_requests w peers (w_random w mod length peers)%nat 0 q1 (bs_requested b2) a1) as (m3, a3). injection Rq as <- <-.
  assert (Hr : (w_random w mod length peers < length peers)%nat) by (apply Nat.mod_upper_bound; lia).
  destruct So as (O1 & O2 & O3 & a2 & -> & A1 & A2 & A3); [|exact Hr|].
  { intros p P. apply can_send_in. destruct (most_work_peers _ _ _ P) as (c & C1 & C2 & _). exists c. auto. }
  cbn [bs_slow bs_requested]. rewrite <- Ep.
  exists q1, ag, a1, a2. split; [reflexivity|]. split; [exact K|]. split; [exact A1|]. split; [exact N1|]. split.
  { intros x X. destruct (W1 x X) as (Y1 & Y2). split; [exact (in_firstn _ _ _ Y1)|exact Y2]. }
  split; [exact B1|]. split. { intros p x X. destruct (A2 _ X) as (p' & x' & X1 & X2). injection X1 as -> ->. exact X2. }
  split.
  { intros p X. apply in_app_or in X. destruct X as [X|X]; [|destruct (A2 _ X) as (p' & x' & X1 & _); discriminate]. destruct (B2 p X) as (Y1 & h & r & Y2 & Y3). split; [exact Y1|]. exists h, r. split; [|exact Y3].
    apply in_map_iff in Y2. destruct Y2 as (z & Z1 & Z2). apply in_map_iff. exists z. split; [exact Z1|exact (in_firstn _ _ _ Z2)]. }
  split.
  { intros Na p. rewrite (A3 (length peers) (w_random w mod length peers)%nat eq_refl Lp) by (cbn; rewrite Nat.add_0_r, Nat.mod_mod by lia; reflexivity).
    apply sixteen; [|exact Hr|exact L]. unfold peers, GetMostWorkPeers. destruct (GetMostWorkPeer _ _); [|constructor].
    clear - Na. induction (w_conns w) as [|d cs IH]; [constructor|]. cbn in Na. apply NoDup_cons_iff in Na. destruct Na as (N1 & N2). cbn. destruct (_ && _)%bool; [|exact (IH N2)]. cbn. constructor; [|exact (IH N2)].
    intros C. apply N1. apply in_map_iff in C. destruct C as (z & Z1 & Z2). apply filter_In in Z2. apply in_map_iff. exists z. tauto. }
  intros _ _ height hash I0.
  assert (Dn : In (height, hash) dn).
  { assert (Hl : firstn 15 (w_needed w) = firstn 15 dn \/ (15 <= length dn)%nat /\ firstn 15 (w_needed w) = firstn 15 dn).
    { assert (Le : firstn 15 (w_needed w) = firstn 15 l) by (unfold l; rewrite firstn_firstn; f_equal; unfold k; lia).
      destruct D1 as [->|D1]; [left; rewrite Le, D0, app_nil_r; reflexivity|]. right.
      assert (Ld : (k <= length dn)%nat) by (cbn in D3; lia).
      split; [unfold k in Ld; lia|]. rewrite Le, D0, firstn_app. replace (15 - length dn)%nat with 0%nat by (unfold k in Ld; lia). cbn [firstn]. apply app_nil_r. }
    assert (Hl' : firstn 15 (w_needed w) = firstn 15 dn) by tauto. rewrite Hl' in I0. exact (in_firstn _ _ _ I0). }
  destruct (D4 height hash Dn) as [X|[X|[X|X]]]; [left; exact X|right; left; exact X|right; right; exact (O2 _ X)|right; right; exact (O1 _ X)].
Qed.
(** Only blocks that are needed, neither stored nor being processed, are asked for, each once, from peers with the most work or from those
    asked before, from a peer not asked before at most 16; and not while an open request for the height is not overdue, unless its peer
    has become slow. *)
Theorem C58_block_requests_partial w y y' a : sync_turn w y = Ret (y', a) -> NoDup (map fst (w_needed w)) -> NoDup (map snd (w_needed w)) ->
  let m := open_requests w (y_blocks y) in
  NoDup (asked a) /\
  (forall p hash, In (ABlock p hash) a ->
     (exists height, In (height, hash) (w_needed w) /\ w_processing w hash = false /\ w_hasBlock w height hash = false /\
        forall r, rfind m height = Some r -> (rq_timeout r < w_now w)%Z \/ In (rq_peer r) (bs_slow (y_blocks y'))) /\
     (In p (GetMostWorkPeers (w_random w) (w_conns w)) \/ exists h r, rfind m h = Some r /\ rq_peer r = p)) /\
  (NoDup (map c_addr (w_conns w)) -> forall p, (forall h r, rfind m h = Some r -> rq_peer r <> p) -> (asked_from p a <= 16)%nat).
Proof.
  intros E N1 N2 m. destruct (turn_blocks _ _ _ _ E) as [(E1 & E2)|(sy & Eb)].
  { split; [rewrite (no_block_asked _ E2); constructor|]. split; [intros p hash X; destruct (E2 p hash X)|]. intros _ p _. assert (Z : asked_from p a = 0%nat); [|lia].
    clear - E2. induction a as [|c a IH]; [reflexivity|]. destruct c; cbn; try (apply IH; intros q x X; exact (E2 q x (or_intror X))). destruct (E2 addr hash). left. reflexivity. }
  destruct (blocks_spec w (seen w y) _ _ _ _ _ eq_refl N1 Eb) as (q1 & ag & a1 & a2 & -> & K1 & K2 & Nd & W & B1 & B2 & _ & C & _). fold m in W, B1.
  assert (Ask : forall x, In x (asked (a1 ++ a2)) -> exists z, In z (q1 ++ ag) /\ snd z = x).
  { intros x X. rewrite asked_app, K1, K2 in X. apply in_app_or in X. destruct X as [X|X]; apply in_map_iff in X; destruct X as (z & Z1 & Z2); exists z; (split; [apply in_or_app; tauto|exact Z1]). }
  split; [|split].
  - rewrite asked_app, K1, K2, <- map_app. apply nodup_map_on.
    + intros x z X Z Q. assert (X' : In x (w_needed w)) by (apply W; apply in_or_app; apply in_app_or in X; tauto). assert (Z' : In z (w_needed w)) by (apply W; apply in_or_app; apply in_app_or in Z; tauto).
      clear - N2 X' Z' Q. induction (w_needed w) as [|d l IH]; [destruct X'|]. cbn in N2. apply NoDup_cons_iff in N2. destruct N2 as (N2 & N3).
      destruct X' as [->|X'], Z' as [<-|Z']; [reflexivity| | |exact (IH N3 X' Z')]; exfalso; apply N2; [rewrite Q; apply in_map; exact Z'|rewrite <- Q; apply in_map; exact X'].
    + apply NoDup_map_inv with (f := fst). rewrite map_app in *. apply (Permutation_NoDup (Permutation_app_comm _ _) Nd).
  - intros p hash X. split.
    + destruct (Ask hash (proj2 (in_asked _ _) (ex_intro _ p X))) as (z & Z1 & <-). destruct (W z Z1) as (Y1 & Y2 & Y3 & Y4). exists (fst z). split; [destruct z; exact Y1|]. split; [exact Y2|]. split; [exact Y3|].
      intros r R. destruct (Z.ltb_spec (rq_timeout r) (w_now w)) as [L|L]; [left; exact L|]. right. destruct (IsSlowPeer (bs_slow (y_blocks y')) (rq_peer r)) eqn:Sl.
      * unfold IsSlowPeer in Sl. apply existsb_exists in Sl. destruct Sl as (q & Q1 & Q2). apply N.eqb_eq in Q2. rewrite Q2. exact Q1.
      * exfalso. apply Y4. exists r. auto.
    + apply in_app_or in X. destruct X as [X|X]; [right; exact (proj2 (B1 p hash X))|left; exact (B2 p hash X)].
  - intros Na p Np. rewrite asked_from_app. assert (Z : asked_from p a1 = 0%nat); [|specialize (C Na p); lia].
    assert (Z : forall x, ~ In (ABlock p x) a1) by (intros x X; destruct (B1 p x X) as (_ & h & r & R1 & R2); exact (Np h r R1 R2)).
    clear - Z. induction a1 as [|c a IH]; [reflexivity|]. destruct c; cbn; try (apply IH; intros x X; exact (Z x (or_intror X))). destruct (N.eqb_spec addr p) as [->|]; [destruct (Z hash); left; reflexivity|].
    apply IH; intros x X; exact (Z x (or_intror X)).
Qed.
(** While blocks are being synchronized, none of the first 15 needed blocks is forgotten: after each turn it is stored, being processed, or
    there is a request for its height that is not overdue. *)
Theorem C58_no_block_forgotten_partial w y y' a : sync_turn w y = Ret (y', a) -> NoDup (map fst (w_needed w)) -> small (w_headerHeight w) -> small (w_blockHeight w) ->
  w_minPeers w <= N.of_nat (length (w_conns w)) -> 0 < m_networkHeight (seen w y) -> (exists c, In c (w_conns w) /\ 0 < c_height c) ->
  CUT_THROUGH_HORIZON <= w_headerHeight w -> w_headerHeight w - CUT_THROUGH_HORIZON < w_blockHeight w -> m_syncStatus (seen w y) <> TXHASHSET_SYNC_FAILED ->
  caught_up (y_headersSynced y) (w_headerHeight w) (m_networkHeight (seen w y)) -> ~ caught_up (y_blocksSynced y) (w_blockHeight w) (m_networkHeight (seen w y)) ->
  m_syncStatus (y_status y') = SYNCING_BLOCKS /\
  forall height hash, In (height, hash) (firstn 15 (w_needed w)) ->
    w_processing w hash = true \/ w_hasBlock w height hash = true \/ outstanding w (bs_requested (y_blocks y')) height.
Proof.
  intros E Nd A B L Nw (c0 & Ic & Hc) C D F G H. unfold sync_turn in E. fold (seen w y) in E. change (m_numActiveConnections (seen w y)) with (N.of_nat (length (w_conns w))) in E.
  rewrite (proj2 (N.leb_le _ _) L), headers_idle in E by assumption. rewrite (state_idle w (seen w y) (y_state y) C A D F) in E. cbn [obind] in E.
  destruct (SyncBlocks w (seen w y) (negb (y_blocksSynced y)) (y_blocks y)) as ((sy, b1), a1) eqn:Eb.
  assert (sy = true) as ->.
  { unfold SyncBlocks in Eb. change (m_blockHeight (seen w y)) with (w_blockHeight w) in Eb. destruct (_ || _)%bool eqn:Q in Eb; [|apply (behind _ _ _ B) in Q; contradiction].
    destruct (IsBlockSyncDue w (seen w y) (y_blocks y)) as (d, b2). destruct d; [destruct (RequestBlocks w b2) as (b3, a2)|]; injection Eb as <- _ _; reflexivity. }
  injection E as <- <-. split; [reflexivity|]. destruct (blocks_spec w (seen w y) _ _ _ _ _ eq_refl Nd Eb) as (_ & _ & _ & _ & _ & _ & _ & _ & _ & _ & _ & _ & _ & Cov).
  apply (Cov eq_refl). intros Emp. assert (X : exists m, GetMostWorkPeer (w_random w) (w_conns w) = Some m).
  { destruct (GetMostWorkPeer (w_random w) (w_conns w)) as [m|] eqn:M; [exists m; reflexivity|]. exfalso. pose proof (most_work_none _ _ M c0 Ic). lia. }
  destruct X as (m & M). pose proof (most_work_peer _ _ _ M) as (M1 & M2 & _). unfold GetMostWorkPeers in Emp. rewrite M in Emp.
  apply map_eq_nil in Emp. assert (In m []) as []. rewrite <- Emp. apply filter_In. split; [exact M1|]. apply andb_true_iff. split; [apply N.leb_refl|apply N.ltb_lt; exact M2].
Qed.

(** * Bans *)
(** A peer is banned only for these reasons. *)
Theorem C58_ban_reasons w y y' a p : sync_turn w y = Ret (y', a) -> NoDup (map fst (w_needed w)) -> In (ABan p) a ->
  (* twice no headers in time, although still connected *)
  (hs_peer (y_headers y) = Some p /\ hs_retried (y_headers y) = true /\ (hs_timeout (y_headers y) < w_now w)%Z /\ IsConnected (w_conns w) p = true) \/
  (* the last peer asked for an archive, when one is to be asked for again *)
  (ss_peer (y_state y) = Some p /\ IsStateSyncDue w (seen w y) (y_state y) = true) \/
  (* a block request was repeated, or the connection is gone *)
  (w_banned w p = false /\ exists h r, rfind (open_requests w (y_blocks y)) h = Some r /\ rq_peer r = p /\ (rq_retried r = true \/ can_send (w_conns w) p = false)).
Proof.
  intros E Nd I0. unfold sync_turn in E. fold (seen w y) in E. destruct (_ <=? _); [|injection E as <- <-; destruct I0].
  destruct (SyncHeaders w (seen w y) (negb (y_headersSynced y)) (y_headers y)) as ((sy, h), a1) eqn:Eh. destruct sy.
  - injection E as <- <-. left. unfold SyncHeaders in Eh. destruct (_ =? 0) in Eh; [injection Eh as <- <-; destruct I0|]. destruct (_ || _)%bool in Eh; [|discriminate].
    assert (G2 : forall h1 h2 a2, RequestHeaders w (seen w y) h1 = (h2, a2) -> ~ In (ABan p) a2).
    { unfold RequestHeaders. intros h1 h2 a2 X. destruct (hs_peer h1) as [q|]; [destruct (can_send (w_conns w) q)|]; [|destruct (GetMostWorkPeer (w_random w) (w_conns w))..]; injection X as <- <-; intros Y; cbn in Y; intuition discriminate. }
    assert (G1 : forall d h1 a2, IsHeaderSyncDue w (seen w y) (y_headers y) = (d, h1, a2) -> In (ABan p) a2 ->
      hs_peer (y_headers y) = Some p /\ hs_retried (y_headers y) = true /\ (hs_timeout (y_headers y) < w_now w)%Z /\ IsConnected (w_conns w) p = true).
    { unfold IsHeaderSyncDue. intros d h1 a2 X J. destruct (hs_peer (y_headers y)) as [q|]; [|injection X as <- <- <-; destruct J]. destruct (_ <=? _) in X; [injection X as <- <- <-; destruct J|].
      destruct (IsConnected (w_conns w) q) eqn:Cn; cbn [negb] in X; [|injection X as <- <- <-; destruct J]. destruct (Z.ltb_spec (hs_timeout (y_headers y)) (w_now w)); [|injection X as <- <- <-; destruct J].
      destruct (hs_retried (y_headers y)); injection X as <- <- <-; [|destruct J]. destruct J as [J|[]]. injection J as <-. auto. }
    destruct (IsHeaderSyncDue w (seen w y) (y_headers y)) as ((d, h1), a2) eqn:E1. destruct d.
    + destruct (RequestHeaders w (seen w y) h1) as (h2, a3) eqn:E2. injection Eh as <- <-. apply in_app_or in I0. destruct I0 as [I0|I0]; [exact (G1 _ _ _ eq_refl I0)|destruct (G2 _ _ _ E2 I0)].
    + injection Eh as <- <-. exact (G1 _ _ _ eq_refl I0).
  - destruct (SyncState w (seen w y) (y_state y)) as [(((sy, s1), x1), a2)| |] eqn:Es; try discriminate. cbn [obind] in E. destruct sy.
    + injection E as <- <-. right. left. unfold SyncState in Es. destruct (IsStateSyncDue w (seen w y) (y_state y)); [|injection Es as _ _ _ <-; destruct I0].
      split; [|reflexivity]. unfold RequestState in Es. destruct (w_headerAt w _); [|discriminate]. destruct (GetMostWorkPeer _ _); cbn in Es; injection Es as _ _ <-; destruct (ss_peer (y_state y)); cbn in I0; intuition congruence.
    + assert (s1 = seen w y) as ->.
      { unfold SyncState in Es. destruct (IsStateSyncDue _ _ _); [destruct (RequestState _ _ _) as [r| |]; discriminate|]. injection Es as _ <- _ _. reflexivity. }
      right. right. destruct (SyncBlocks w (seen w y) (negb (y_blocksSynced y)) (y_blocks y)) as ((sy, b1), a3) eqn:Eb.
      assert (a3 = a) as <- by (destruct sy; injection E as _ <-; reflexivity).
      destruct (blocks_spec w (seen w y) _ _ _ _ _ eq_refl Nd Eb) as (_ & _ & _ & _ & _ & _ & _ & _ & _ & _ & _ & Bn & _). destruct (Bn p I0) as (X1 & hh & r & _ & X2). split; [exact X1|]. exists hh, r. exact X2.
Qed.

(** A peer that claims more work but sends no headers is banned after two time limits of ten seconds, if the thread looks at the clock
    after each. *)
Definition waits (H p : N) (w : world) : Prop :=
  IsConnected (w_conns w) p = true /\ w_headerHeight w = H /\ w_minPeers w <= N.of_nat (length (w_conns w)) /\
  (exists c, In c (w_conns w) /\ 0 < c_height c) /\ (forall c, best_peer (w_conns w) c -> H + 5 <= c_height c).
Definition asking (H p : N) (h : HeaderSyncer) : Prop := hs_peer h = Some p /\ H < hs_lastHeight h + 511 /\ small (hs_lastHeight h).
Lemma connected_send l p : IsConnected l p = true -> can_send l p = true.
Proof. unfold IsConnected, can_send. rewrite !existsb_exists. intros (c & X & Y). exists c. apply andb_true_iff in Y. tauto. Qed.
Lemma waits_turn H p w y y' a : small H -> waits H p w -> asking H p (y_headers y) -> sync_turn w y = Ret (y', a) ->
  In (ABan p) a \/ (asking H p (y_headers y') /\
    ((hs_retried (y_headers y') = hs_retried (y_headers y) /\ hs_timeout (y_headers y') = hs_timeout (y_headers y) /\ (w_now w <= hs_timeout (y_headers y))%Z) \/
     (hs_retried (y_headers y) = false /\ hs_retried (y_headers y') = true /\ hs_timeout (y_headers y') = (w_now w + 10)%Z))).
Proof.
  intros Sm (W1 & W2 & W3 & (c0 & Ic & Hc) & W5) (Q1 & Q2 & Q3) E. unfold sync_turn in E. fold (seen w y) in E. change (m_numActiveConnections (seen w y)) with (N.of_nat (length (w_conns w))) in E.
  rewrite (proj2 (N.leb_le _ _) W3) in E. assert (Nw : H + 5 <= m_networkHeight (seen w y)).
  { unfold seen, UpdateSyncStatus. cbn. destruct (GetMostWorkPeer (w_random w) (w_conns w)) as [m|] eqn:M; [|pose proof (most_work_none _ _ M c0 Ic); lia].
    pose proof (W5 m (most_work_peer _ _ _ M)). destruct (N.eqb_spec (c_height m) 0); lia. }
  unfold SyncHeaders in E. destruct (N.eqb_spec (m_networkHeight (seen w y)) 0); [lia|]. change (m_headerHeight (seen w y)) with (w_headerHeight w) in E. rewrite W2 in E.
  assert (A5 : add64 H 5 = H + 5) by (unfold add64, small in *; apply N.mod_small; assert (2 ^ 63 + 5 < W64) by reflexivity; lia).
  rewrite A5, (proj2 (N.leb_le _ _) Nw) in E. cbn [orb] in E. unfold IsHeaderSyncDue in E. rewrite Q1 in E. change (m_headerHeight (seen w y)) with (w_headerHeight w) in E. rewrite W2 in E.
  assert (A6 : (sub64 (add64 (hs_lastHeight (y_headers y)) MAX_BLOCK_HEADERS) 1 <=? H) = false).
  { apply N.leb_gt. unfold add64, MAX_BLOCK_HEADERS, small in *. rewrite N.mod_small by (assert (2 ^ 63 + 512 < W64) by reflexivity; lia). unfold sub64.
    replace (hs_lastHeight (y_headers y) + 512 + (W64 - 1)) with (hs_lastHeight (y_headers y) + 511 + 1 * W64) by lia. rewrite N.mod_add by discriminate. rewrite N.mod_small by (assert (2 ^ 63 + 512 < W64) by reflexivity; lia). exact Q2. }
  rewrite A6, W1 in E. cbn [negb] in E. destruct (Z.ltb_spec (hs_timeout (y_headers y)) (w_now w)) as [T|T].
  - destruct (hs_retried (y_headers y)) eqn:R.
    + left. destruct (RequestHeaders _ _ _) as (h1, b1). cbn in E. injection E as <- <-. left. reflexivity.
    + right. unfold RequestHeaders in E. cbn [hs_peer] in E. rewrite (connected_send _ _ W1) in E. cbn in E. injection E as <- <-. unfold asking. cbn [y_headers hs_peer hs_lastHeight hs_retried hs_timeout]. rewrite ?W2. split; [split; [reflexivity|split; [change (m_headerHeight (seen w y)) with (w_headerHeight w); rewrite ?W2; clear; lia|change (m_headerHeight (seen w y)) with (w_headerHeight w); rewrite ?W2; exact Sm]]|]. right. repeat split.
  - right. injection E as <- <-. split; [repeat split; assumption|]. left. repeat split. exact T.
Qed.
Theorem C58_silent_peer_banned H p ws1 w1 ws2 w2 ws3 y y' a : small H -> Forall (waits H p) (ws1 ++ w1 :: ws2 ++ w2 :: ws3) -> asking H p (y_headers y) ->
  hs_retried (y_headers y) = false -> Forall (fun w => w_now w <= w_now w1)%Z ws1 -> (hs_timeout (y_headers y) < w_now w1)%Z -> (w_now w1 + 10 < w_now w2)%Z ->
  sync_turns (ws1 ++ w1 :: ws2 ++ w2 :: ws3) y = Ret (y', a) -> In (ABan p) a.
Proof.
  intros Sm F Q R T1 T2 T3.
  (* after the second time limit has begun *)
  assert (Late : forall ws y y' a, Forall (waits H p) (ws ++ w2 :: ws3) -> asking H p (y_headers y) -> hs_retried (y_headers y) = true -> (hs_timeout (y_headers y) < w_now w2)%Z ->
    sync_turns (ws ++ w2 :: ws3) y = Ret (y', a) -> In (ABan p) a).
  { clear - Sm. induction ws as [|w ws IH]; intros y y' a F Q R T E; cbn in F, E; inversion F as [|? ? F1 F2]; subst.
    - destruct (sync_turn w2 y) as [(y1, a1)| |] eqn:E1; try discriminate. cbn [obind fst snd] in E. destruct (sync_turns ws3 y1) as [(y2, a2)| |] eqn:E2; try discriminate. injection E as <- <-. cbn. apply in_or_app.
      left. destruct (waits_turn _ _ _ _ _ _ Sm F1 Q E1) as [X|(_ & [(_ & _ & X)|(X & _)])]; [exact X|lia|congruence].
    - destruct (sync_turn w y) as [(y1, a1)| |] eqn:E1; try discriminate. cbn [obind fst snd] in E. destruct (sync_turns (ws ++ w2 :: ws3) y1) as [(y2, a2)| |] eqn:E2; try discriminate. injection E as <- <-. cbn. apply in_or_app.
      destruct (waits_turn _ _ _ _ _ _ Sm F1 Q E1) as [X|(Q' & [(X1 & X2 & _)|(X & _)])]; [left; exact X| |congruence]. right. apply (fun A B => IH _ _ _ F2 Q' A B E2); [congruence|rewrite X2; exact T]. }
  revert y y' a F Q R T2. induction ws1 as [|w ws1 IH]; intros y y' a F Q R T2 E; cbn in F, E; inversion F as [|? ? F1 F2]; subst.
  - destruct (sync_turn w1 y) as [(y1, a1)| |] eqn:E1; try discriminate. cbn [obind fst snd] in E. destruct (sync_turns (ws2 ++ w2 :: ws3) y1) as [(y2, a2)| |] eqn:E2; try discriminate. injection E as <- <-. cbn. apply in_or_app.
    destruct (waits_turn _ _ _ _ _ _ Sm F1 Q E1) as [X|(Q' & [(_ & _ & X)|(_ & X1 & X2)])]; [left; exact X|lia|]. right. apply (fun T => Late _ _ _ _ F2 Q' X1 T E2); lia.
  - destruct (sync_turn w y) as [(y1, a1)| |] eqn:E1; try discriminate. cbn [obind fst snd] in E. destruct (sync_turns (ws1 ++ w1 :: ws2 ++ w2 :: ws3) y1) as [(y2, a2)| |] eqn:E2; try discriminate. injection E as <- <-. cbn. apply in_or_app.
    inversion T1 as [|? ? T4 T5]; subst.
    destruct (waits_turn _ _ _ _ _ _ Sm F1 Q E1) as [X|(Q' & [(X1 & X2 & _)|(_ & X1 & X2)])]; [left; exact X| |]; right.
    + apply (IH T5 y1 y2 a2 F2 Q'); [congruence|rewrite X2; exact T2|exact E2].
    + replace (ws1 ++ w1 :: ws2 ++ w2 :: ws3) with ((ws1 ++ w1 :: ws2) ++ w2 :: ws3) in * by (rewrite <- app_assoc; reflexivity). apply (fun T => Late _ _ _ _ F2 Q' X1 T E2); lia.
Qed.

(** * What goes wrong *)
Definition peer (p : N) : conn := mkConn p 20000 1000 true.
Definition block_at (h : N) : N * bytes := (h, [h / 256; h mod 256]).
(** Headers up to 20000, blocks up to 15000, and these needed. *)
Definition at_time (now : Z) (conns : list conn) (needed : list (N * bytes)) : world :=
  mkWorld now conns 20000 15000 (fun _ => Some [1]) needed (fun _ => false) (fun _ _ => false) (fun _ => false) 1 0 None 0.
(** A peer whose connection has ended is banned, although it was asked only once. *)
Theorem C58_disconnected_banned_refuted : exists w1 w2 y' a p, sync_turns [w1; w2] (Syncer_start 0) = Ret (y', a) /\ asked_from p a = 1%nat /\
  IsConnected (w_conns w2) p = false /\ In (ABan p) a.
Proof.
  set (w1 := at_time 1 [peer 1] [block_at 15001]). set (w2 := at_time 12 [peer 2] [block_at 15001]).
  destruct (sync_turns [w1; w2] (Syncer_start 0)) as [(y', a)| |] eqn:E; [|vm_compute in E; discriminate..]. exists w1, w2, y', a, 1. split; [exact E|].
  apply (f_equal (fun o => match o with Ret z => snd z | _ => [] end)) in E. cbv beta iota in E. cbn [snd] in E. rewrite <- E. vm_compute. split; [reflexivity|]. split; [reflexivity|]. right. left. reflexivity.
Qed.
(** A peer is slow for ever, ... *)
Theorem C58_slow_forever w y y' a p : sync_turn w y = Ret (y', a) -> In p (bs_slow (y_blocks y)) -> In p (bs_slow (y_blocks y')).
Proof.
  intros E I0. unfold sync_turn in E. destruct (_ <=? _); [|injection E as <- <-; exact I0].
  destruct (SyncHeaders _ _ _ _) as ((sy, h), a1). destruct sy; [injection E as <- <-; exact I0|].
  destruct (SyncState _ _ _) as [(((sy, s1), x1), a2)| |]; try discriminate. cbn [obind] in E. destruct sy; [injection E as <- <-; exact I0|].
  destruct (SyncBlocks w s1 (negb (y_blocksSynced y)) (y_blocks y)) as ((sy, b1), a3) eqn:Eb. assert (y_blocks y' = b1) as -> by (destruct sy; injection E as <- _; reflexivity). clear E.
  unfold SyncBlocks, IsBlockSyncDue in Eb. destruct (_ || _)%bool in Eb; [|injection Eb as _ <- _; exact I0]. destruct (_ || _)%bool in Eb; [|injection Eb as _ <- _; exact I0].
  destruct (RequestBlocks _ _) as (b2, a4) eqn:Er. injection Eb as _ <- _. cbn [bs_slow]. unfold RequestBlocks in Er. destruct (GetMostWorkPeers _ _) as [|p0 ps]; [injection Er as <- _; exact I0|].
  match type of Er with context [collect ?w ?k ?l ?b ?c ?d ?e] => pose proof (run_mono _ _ _ _ _ _ _ _ (collect_run w k l b c d e)) as (M & _); destruct (collect w k l b c d e) as ((b3, q3), a5) end.
  destruct (send_requests _ _ _ _ _ _ _) as (m4, a6). injection Er as <- _. cbn in *. assert (X : IsSlowPeer (bs_slow b3) p = true) by (apply M; apply existsb_exists; exists p; split; [exact I0|apply N.eqb_refl]).
  apply existsb_exists in X. destruct X as (q & Q1 & Q2). apply N.eqb_eq in Q2. subst q. exact Q1.
Qed.
(** ... and is then banned without having had any time: here it was asked for the block for the first time within the same second. *)
Theorem C58_slow_forever_refuted : exists w1 w2 w3 y y' a p, sync_turns [w1; w2; w3] y = Ret (y', a) /\ w_now w1 = w_now w3 /\ bs_requested (y_blocks y) = [] /\
  IsConnected (w_conns w3) p = true /\ In (ABan p) a.
Proof.
  set (w := at_time 100000 [peer 1] [block_at 15001]). set (y := mkSyncer (mkStatus SYNCING_BLOCKS 0 0 0 0 0) (mkHS 0 0 None false) (mkSS 0 0 None) (mkBS 15000 [] [1]) true false).
  destruct (sync_turns [w; w; w] y) as [(y', a)| |] eqn:E; [|vm_compute in E; discriminate..]. exists w, w, w, y, y', a, 1. split; [exact E|].
  apply (f_equal (fun o => match o with Ret z => snd z | _ => [] end)) in E. cbv beta iota in E. cbn [snd] in E. rewrite <- E. vm_compute. repeat (split; [reflexivity|]). right. right. left. reflexivity.
Qed.
(** Whoever sent the archive that failed, the peer that was asked is banned, here within a second. *)
Theorem C58_wrong_peer_banned_refuted : exists w1 w2 y' a p, sync_turns [w1; w2] (Syncer_start 0) = Ret (y', a) /\ w_now w2 = (w_now w1 + 1)%Z /\
  (exists hash height, In (AState p hash height) a) /\ w_status w2 = Some TXHASHSET_SYNC_FAILED /\ In (ABan p) a.
Proof.
  set (w1 := mkWorld 1 [peer 1; peer 2] 20000 0 (fun _ => Some [1]) [] (fun _ => false) (fun _ _ => false) (fun _ => false) 1 0 None 0).
  set (w2 := mkWorld 2 [peer 1; peer 2] 20000 0 (fun _ => Some [1]) [] (fun _ => false) (fun _ _ => false) (fun _ => false) 1 0 (Some TXHASHSET_SYNC_FAILED) 5000).
  destruct (sync_turns [w1; w2] (Syncer_start 0)) as [(y', a)| |] eqn:E; [|vm_compute in E; discriminate..]. exists w1, w2, y', a, 1. split; [exact E|].
  apply (f_equal (fun o => match o with Ret z => snd z | _ => [] end)) in E. cbv beta iota in E. cbn [snd] in E. rewrite <- E. vm_compute. split; [reflexivity|]. split; [eexists; eexists; left; reflexivity|]. split; [reflexivity|]. right. left. reflexivity.
Qed.
(** A needed block as high as the confirmed chain (of a fork) is asked for again in every turn, although the request is not overdue. *)
Theorem C58_repeat_refuted : exists w y' a hash, sync_turns [w; w; w] (Syncer_start 0) = Ret (y', a) /\ asked a = [hash; hash; hash].
Proof.
  set (w := at_time 1 [peer 1] [block_at 15000]). destruct (sync_turns [w; w; w] (Syncer_start 0)) as [(y', a)| |] eqn:E; [|vm_compute in E; discriminate..]. exists w, y', a, (snd (block_at 15000)). split; [exact E|].
  apply (f_equal (fun o => match o with Ret z => snd z | _ => [] end)) in E. cbv beta iota in E. cbn [snd] in E. rewrite <- E. vm_compute. reflexivity.
Qed.
(** Requests are known by their height: if the best header chain changes, the new block at a height is not asked for while the request for
    the old one is not overdue, and none of the first blocks needed is. *)
Theorem C58_fork_block_refuted : exists w1 w2 y1 a1 y2 a2 height old new, sync_turn w1 (Syncer_start 0) = Ret (y1, a1) /\ sync_turn w2 y1 = Ret (y2, a2) /\
  In old (asked a1) /\ w_needed w2 = [(height, new)] /\ new <> old /\ (w_now w1 < w_now w2)%Z /\ asked a2 = [].
Proof.
  set (w1 := at_time 1 [peer 1] [block_at 15001]). set (w2 := at_time 9 [peer 1] [(15001, [7])]).
  destruct (sync_turn w1 (Syncer_start 0)) as [(y1, a1)| |] eqn:E1; [|vm_compute in E1; discriminate..]. vm_compute in E1. injection E1 as <- <-.
  eexists w1, w2, _, _, _, _, 15001, (snd (block_at 15001)), [7]. split; [vm_compute; reflexivity|]. split; [vm_compute; reflexivity|].
  split; [vm_compute; left; reflexivity|]. split; [reflexivity|]. split; [vm_compute; discriminate|]. split; [reflexivity|]. reflexivity.
Qed.
(** On shutdown, every second connection is left open. *)
Fixpoint every_second {A} (l : list A) : list A := match l with [] => [] | [_] => [] | _ :: d :: l' => d :: every_second l' end.
Theorem C58_prune_refuted l : PruneConnections false l = every_second l.
Proof.
  enough (H : PruneConnections false l = every_second l /\ forall c, PruneConnections false (c :: l) = every_second (c :: l)) by exact (proj1 H).
  induction l as [|d l (IH1 & IH2)]; [split; reflexivity|]. split; [apply IH2|]. intros c. cbn. f_equal. exact IH1.
Qed.
Theorem C58_prune_partial l : (forall c, In c l -> c_active c = true -> In c (PruneConnections true l)) /\ (forall c, In c (PruneConnections true l) -> In c l).
Proof.
  enough (H : forall l, (forall c, In c l -> c_active c = true -> In c (PruneConnections true l)) /\ (forall c, In c (PruneConnections true l) -> In c l)) by apply H. clear l.
  intros l. remember (length l) as n eqn:En. assert (Le : (length l <= n)%nat) by lia. clear En. revert l Le. induction n as [|n IH]; intros [|d l] Le; cbn in Le; try lia; try (split; intros c []; fail).
  cbn [PruneConnections negb orb]. destruct (c_active d) eqn:Ad; cbn [negb].
  - destruct (IH l ltac:(lia)) as (H1 & H2). split; [intros c [<-|I0] Ac; [left; reflexivity|right; exact (H1 c I0 Ac)]|intros c [<-|I0]; [left; reflexivity|right; exact (H2 c I0)]].
  - destruct l as [|e l]; [split; [intros c [<-|[]] Ac; congruence|intros c []]|]. cbn in Le. destruct (IH l ltac:(lia)) as (H1 & H2).
    split; [intros c [<-|[<-|I0]] Ac; [congruence|left; reflexivity|right; exact (H1 c I0 Ac)]|intros c [<-|I0]; [right; left; reflexivity|right; right; exact (H2 c I0)]].
Qed.

(** * Examples *)
(** Headers asked for, twice in vain: the conditions of [C58_silent_peer_banned] hold after the first turn. *)
Definition low_at (now : Z) : world := mkWorld now [mkConn 1 100 1000 true; mkConn 2 90 900 true] 50 50 (fun _ => Some [1]) [] (fun _ => false) (fun _ _ => false) (fun _ => false) 1 0 None 0.
Example C58_silent_example : exists y1 y' a, sync_turn (low_at 0) (Syncer_start 0) = Ret (y1, [AHeaders 1]) /\ asking 50 1 (y_headers y1) /\ hs_retried (y_headers y1) = false /\
  Forall (waits 50 1) ([low_at 5] ++ low_at 11 :: [low_at 15] ++ low_at 22 :: []) /\ (hs_timeout (y_headers y1) < 11)%Z /\
  sync_turns ([low_at 5] ++ low_at 11 :: [low_at 15] ++ low_at 22 :: []) y1 = Ret (y', a) /\ a = [AHeaders 1; ABan 1; AHeaders 1].
Proof.
  eexists _, _, _. split; [vm_compute; reflexivity|]. split; [repeat split|]. split; [reflexivity|]. split; [|split; [reflexivity|split; [vm_compute; reflexivity|reflexivity]]].
  assert (W : forall t, waits 50 1 (low_at t)).
  { intros t. split; [reflexivity|]. split; [reflexivity|]. split; [vm_compute; discriminate|]. split; [eexists; split; [left; reflexivity|reflexivity]|].
    intros c (I0 & _ & B). destruct I0 as [<-|[<-|[]]]; [vm_compute; discriminate|vm_compute; discriminate]. }
  cbn. repeat (constructor; [apply W|]). constructor.
Qed.
(** Forty blocks needed, two peers: sixteen are asked from each. *)
Definition forty : list (N * bytes) := map (fun k => block_at (15001 + N.of_nat k)) (seq 0 40).
Example C58_blocks_example : exists y' a, sync_turn (at_time 1 [peer 1; peer 2] forty) (Syncer_start 0) = Ret (y', a) /\ NoDup (map fst forty) /\ NoDup (map snd forty) /\
  asked_from 1 a = 16%nat /\ asked_from 2 a = 16%nat /\ m_syncStatus (y_status y') = SYNCING_BLOCKS /\
  caught_up false 20000 (m_networkHeight (seen (at_time 1 [peer 1; peer 2] forty) (Syncer_start 0))) /\ ~ caught_up false 15000 20000.
Proof.
  eexists _, _. split; [vm_compute; reflexivity|].
  assert (D : forall l : list (N * bytes), (forall x, In x l -> snd x = [fst x / 256; fst x mod 256]) -> NoDup (map fst l) -> NoDup (map snd l)).
  { intros l H Nd. apply nodup_map_on; [|apply NoDup_map_inv with (f := fst); exact Nd]. intros x y X Y E. pose proof (H x X) as X1. pose proof (H y Y) as Y1. rewrite X1, Y1 in E.
    injection E as E2 E3. pose proof (N.div_mod' (fst x) 256) as D1. pose proof (N.div_mod' (fst y) 256) as D2. rewrite E2, E3, <- D2 in D1. destruct x, y; cbn [fst snd] in *; subst; reflexivity. }
  assert (N1 : NoDup (map fst forty)).
  { unfold forty. rewrite map_map. cbn [block_at fst]. apply FinFun.Injective_map_NoDup; [intros x y E; lia|apply seq_NoDup]. }
  split; [exact N1|]. split; [apply D; [|exact N1]; intros x X; unfold forty in X; apply in_map_iff in X; destruct X as (k & <- & K); reflexivity|].
  split; [reflexivity|]. split; [reflexivity|]. split; [reflexivity|]. split; [vm_compute; discriminate|]. intros C. apply C. reflexivity.
Qed.
(** On a short chain, the node has all headers of the network, needs blocks, and waits for them without asking. *)
Example C58_short_chain_example : let w := mkWorld 0 [mkConn 1 100 1000 true] 100 0 (fun _ => Some [1]) [(1, [7])] (fun _ => false) (fun _ _ => false) (fun _ => false) 1 0 None 0 in
  exists y', sync_turns [w; w; w] (Syncer_start 0) = Ret (y', []) /\ y_headersSynced y' = true.
Proof. eexists. split; [vm_compute; reflexivity|reflexivity]. Qed.

Definition sync_theorems := (C58_most_work, C58_synced_partial, C58_short_chain_refuted, C58_block_requests_partial, C58_no_block_forgotten_partial, C58_ban_reasons, C58_silent_peer_banned,
  C58_disconnected_banned_refuted, C58_slow_forever, C58_slow_forever_refuted, C58_wrong_peer_banned_refuted, C58_repeat_refuted, C58_fork_block_refuted, C58_prune_refuted, C58_prune_partial,
  C58_silent_example, C58_blocks_example, C58_short_chain_example).
Print Assumptions sync_theorems.
