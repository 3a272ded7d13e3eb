(** Invariants of header processing. *)
From Verif Require Import Base Bytes MMRIndexModel MMRHashModel MMRHashSpec MMRHashProofs CodecModel ConsensusModel CuckooModel
  DifficultyModel CacheModel CacheSpec HeaderModel HeaderSpec HeaderProofs.
Local Open Scope N_scope.

Definition small (h : BlockHeader) : Prop := h_height h < 4611686018427387904.

Lemma hd_firstn {A} (l : list A) n : (0 < n)%nat -> hd_error (firstn n l) = hd_error l.
Proof. destruct n; [lia|]. destruct l; reflexivity. Qed.
Lemma in_firstn {A} n (l : list A) x : In x (firstn n l) -> In x l.
Proof. intros H. rewrite <- (firstn_skipn n l). apply in_or_app. auto. Qed.
Lemma nth_firstn {A} (l : list A) n i : nth_error (firstn n l) i = if (i <? n)%nat then nth_error l i else None.
Proof.
  revert l i. induction n as [|n IH]; intros l i; [cbn; destruct i; reflexivity|].
  destruct l as [|a l]; [cbn [firstn]; destruct i; destruct (Nat.ltb _ _); reflexivity|]. destruct i as [|i]; [reflexivity|].
  cbn [firstn nth_error]. rewrite IH. reflexivity.
Qed.
Lemma nth_app {A} (a b : list A) i : nth_error (a ++ b) i = if (i <? length a)%nat then nth_error a i else nth_error b (i - length a).
Proof. destruct (i <? length a)%nat eqn:E; [apply Nat.ltb_lt in E; apply nth_error_app1; lia|apply Nat.ltb_ge in E; apply nth_error_app2; lia]. Qed.

Lemma entries_in new x : In x (rev (map entry new)) <-> exists h, x = entry h /\ In h new.
Proof. rewrite <- in_rev, in_map_iff. split; intros (h & A & B); eauto. Qed.
Lemma skip_suffix l hs : exists pre, hs = pre ++ skip_known l hs.
Proof.
  induction hs as [|h hs [pre IH]]; [exists []; reflexivity|]. cbn [skip_known].
  destruct (on_chain l (h_height h) (BlockHeader_GetHash h)); [|exists []; reflexivity]. exists (h :: pre). cbn. f_equal. exact IH.
Qed.
Lemma last_default {A} (l : list A) d d' : l <> [] -> last l d = last l d'.
Proof. induction l as [|a [|b l] IH]; intros H; [contradiction|reflexivity|]. cbn [last] in *. apply IH. discriminate. Qed.
Lemma quiet_same s s' : quiet s -> same_stores s s' -> quiet s'.
Proof. intros (A & B & C & D & E) (S1 & S2 & S3 & S4 & S5). unfold quiet. rewrite S1, S2, S3, S4, S5. auto. Qed.
Section Inv.
Variable Blake2b : bytes -> bytes.
Variable BAD_BLOCKS : bytes -> bool.
Variable env : Environment.
Variable pow_keys : BlockHeader -> sip.
Variable genesis : BlockHeader.

Record Inv (s : cstate) (hs : list BlockHeader) : Prop := mkInv {
  i_quiet : quiet s;
  i_keyed : keyed (headers_db s);
  i_okeyed : keyed (cache_items_map (s_orphans s));
  i_small : forall k h, In (k, h) (headers_db s) -> small h;
  i_osmall : forall k h, In (k, h) (cache_items_map (s_orphans s)) -> small h;
  i_best : map BlockHeader_GetHash hs = best s;
  i_in : forall h, In h hs -> In (entry h) (headers_db s);
  i_genesis : hd_error hs = Some genesis;
  i_height : forall i h, nth_error hs i = Some h -> h_height h = N.of_nat i;
  i_valid : env <> AUTOMATED_TESTING -> forall k h, In (k, h) (headers_db s) -> h = genesis \/
    exists p, In (entry p) (headers_db s) /\ h_height h = h_height p + 1 /\ h_totalDifficulty p < h_totalDifficulty h
}.

Lemma added_height new : forall len f p f' i h, added Blake2b env len f p new f' -> nth_error new i = Some h -> h_height h = N.of_nat (len + i).
Proof.
  induction new as [|x new IH]; intros len f p f' i h A E; [destruct i; discriminate|].
  cbn [added] in A. destruct A as (A1 & _ & _ & _ & f1 & _ & A). destruct i as [|i]; cbn in E.
  - injection E as <-. rewrite Nat.add_0_r. exact A1.
  - rewrite (IH _ _ _ _ _ _ A E). f_equal. lia.
Qed.
Lemma added_valid new : forall len f p f' h, added Blake2b env len f p new f' -> env <> AUTOMATED_TESTING ->
  small p -> Forall small new -> In h new ->
  exists q, (q = p \/ In q new) /\ h_height h = h_height q + 1 /\ h_totalDifficulty q < h_totalDifficulty h.
Proof.
  induction new as [|x new IH]; intros len f p f' h A He Sp Sn Hi; [contradiction|].
  cbn [added] in A. destruct A as (_ & A2 & A3 & _ & f1 & _ & A). inversion Sn; subst.
  destruct Hi as [->|Hi].
  - exists p. split; [auto|]. split; [|auto]. rewrite add64_small in A2; [exact A2|]. unfold small in Sp. change W64 with 18446744073709551616. lia.
  - destruct (IH _ _ _ _ h A He H1 H2 Hi) as (q & Hq & R). exists q. split; [|exact R]. destruct Hq as [->|Hq]; right; [left; reflexivity|right; exact Hq].
Qed.

Definition chain_after (moved : bool) (len : nat) (hs new : list BlockHeader) : list BlockHeader :=
  if moved then firstn len hs ++ new else hs.
Lemma accepted_inv s s' hs new moved : Inv s hs -> accepted Blake2b env s s' new moved -> Forall small new ->
  keyed (cache_items_map (s_orphans s')) -> (forall k h, In (k, h) (cache_items_map (s_orphans s')) -> small h) ->
  exists len p f f', Inv s' (chain_after moved len hs new) /\
    db_find (headers_db s) (match new with h :: _ => h_previousBlockHash h | [] => [] end) = Some p /\
    added Blake2b env len f p new f' /\ (len <= length (best s))%nat /\ (0 < len)%nat /\
    (f = committed (s_mmr s) \/ RewindHashes (committed (s_mmr s)) (N.of_nat len) = Ret f) /\
    (f = committed (s_mmr s) -> lidx_position (LeafIndex_At (N.of_nat len)) = GetSize (committed (s_mmr s)) \/ len = length (best s)) /\
    committed (s_mmr s') = (if moved then f' else committed (s_mmr s)).
Proof.
  intros I A Sn Ko So. destruct A as [Q' C' D' St (p & len & f & f' & A1 & A2 & A3 & A4 & A5 & A6 & A7 & A8)]. exists len, p, f, f'.
  split; [|repeat (split; [assumption|]); destruct moved; [apply (A8 eq_refl)|apply (St eq_refl)]].
  pose proof (db_find_in _ _ _ A1) as Hp. pose proof (i_keyed _ _ I _ _ Hp) as Kp. rewrite Kp in Hp.
  pose proof (i_small _ _ I _ _ Hp) as Sp.
  assert (Lh : length hs = length (best s)) by (rewrite <- (i_best _ _ I), map_length; reflexivity).
  constructor.
  - exact Q'.
  - intros k h Hi. rewrite D' in Hi. apply in_app_or in Hi. destruct Hi as [Hi|Hi]; [|apply (i_keyed _ _ I _ _ Hi)].
    apply entries_in in Hi. destruct Hi as (x & Ex & Hx). injection Ex as -> ->. reflexivity.
  - exact Ko.
  - intros k h Hi. rewrite D' in Hi. apply in_app_or in Hi. destruct Hi as [Hi|Hi]; [|apply (i_small _ _ I _ _ Hi)].
    apply entries_in in Hi. destruct Hi as (x & Ex & Hx). injection Ex as -> ->. rewrite Forall_forall in Sn. auto.
  - exact So.
  - destruct moved; cbn [chain_after].
    + destruct (A8 eq_refl) as [A9 _]. rewrite A9, map_app, <- (i_best _ _ I), firstn_map. reflexivity.
    + destruct (St eq_refl) as [St1 _]. rewrite St1. apply (i_best _ _ I).
  - intros h Hi. rewrite D'. apply in_or_app. destruct moved; cbn [chain_after] in Hi; [apply in_app_or in Hi; destruct Hi as [Hi|Hi]|].
    + right. apply (i_in _ _ I). apply in_firstn in Hi. exact Hi.
    + left. apply entries_in. eauto.
    + right. apply (i_in _ _ I _ Hi).
  - destruct moved; cbn [chain_after]; [|apply (i_genesis _ _ I)].
    destruct hs as [|h0 hs]; [discriminate (i_genesis _ _ I)|]. destruct len; [lia|]. cbn. exact (i_genesis _ _ I).
  - intros i h E. destruct moved; cbn [chain_after] in E; [|apply (i_height _ _ I _ _ E)].
    rewrite nth_app in E. rewrite firstn_length in E. destruct (i <? Nat.min len (length hs))%nat eqn:Ei.
    + apply Nat.ltb_lt in Ei. rewrite nth_firstn in E. replace (i <? len)%nat with true in E by (symmetry; apply Nat.ltb_lt; lia).
      apply (i_height _ _ I _ _ E).
    + apply Nat.ltb_ge in Ei. rewrite (added_height _ _ _ _ _ _ _ A2 E). f_equal. lia.
  - intros He k h Hi. rewrite D' in Hi |- *. apply in_app_or in Hi. destruct Hi as [Hi|Hi].
    + apply entries_in in Hi. destruct Hi as (x & Ex & Hx). injection Ex as -> ->. right.
      destruct (added_valid _ _ _ _ _ x A2 He Sp Sn Hx) as (q & Hq & R). exists q. split; [|exact R]. apply in_or_app.
      destruct Hq as [->|Hq]; [right; exact Hp|left; apply entries_in; eauto].
    + destruct (i_valid _ _ I He _ _ Hi) as [->|(q & Hq & R)]; [auto|]. right. exists q. split; [apply in_or_app; auto|exact R].
Qed.

(** How one event changes the state, forgetting its result. *)
Inductive change (s s' : cstate) : Prop :=
| change_none : same_stores s s' -> change s s'
| change_accept new moved : accepted Blake2b env s s' new moved -> Forall small new -> change s s'.

Lemma same_inv s s' hs : Inv s hs -> same_stores s s' ->
  keyed (cache_items_map (s_orphans s')) -> (forall k h, In (k, h) (cache_items_map (s_orphans s')) -> small h) -> Inv s' hs.
Proof.
  intros I (S1 & S2 & S3 & S4 & S5) Ko So.
  assert (Eb : best s' = best s) by (unfold best; rewrite S2; reflexivity).
  assert (Ed : headers_db s' = headers_db s) by (unfold headers_db; rewrite S3; reflexivity).
  constructor; try rewrite Ed; try rewrite Eb; try apply I; try assumption.
  destruct (i_quiet _ _ I) as (A & B & C & D & E). unfold quiet. rewrite S1, S2, S3, S4, S5. auto.
Qed.

(** ** A single header *)
Lemma tip_last (s : cstate) : tip_hash (best s) = last (best s) [].
Proof. reflexivity. Qed.
Lemma inv_best_nonempty s hs : Inv s hs -> best s <> [].
Proof. intros I E. pose proof (i_best _ _ I) as B. pose proof (i_genesis _ _ I) as G. rewrite E in B. destruct hs; discriminate. Qed.

Lemma single_orphans_ok fuel now h s r s' hs : Inv s hs -> small h ->
  ProcessSingleHeader Blake2b BAD_BLOCKS env pow_keys fuel now h s = Some (r, s') ->
  keyed (cache_items_map (s_orphans s')) /\ (forall k h, In (k, h) (cache_items_map (s_orphans s')) -> small h).
Proof.
  intros I Sh E. pose proof (single_orphans _ _ _ _ _ _ _ _ _ _ (i_quiet _ _ I) (i_keyed _ _ I) (i_okeyed _ _ I) E) as S. split.
  - intros k x Hx. destruct (S _ Hx) as [Ex|Hx']; [injection Ex as -> ->; reflexivity|apply (i_okeyed _ _ I _ _ Hx')].
  - intros k x Hx. destruct (S _ Hx) as [Ex|Hx']; [injection Ex as -> ->; exact Sh|apply (i_osmall _ _ I _ _ Hx')].
Qed.

Inductive single_change (s s' : cstate) (h : BlockHeader) (r : outcome EBlockChainStatus) : Prop :=
| sc_none : r <> Ret SUCCESS -> same_stores s s' -> single_change s s' h r
| sc_extend : r = Ret SUCCESS -> accepted Blake2b env s s' [h] true -> h_previousBlockHash h = tip_hash (best s) -> single_change s s' h r
| sc_reorg new t : r = Ret SUCCESS -> accepted Blake2b env s s' new (negb (h_totalDifficulty h <=? work s)) -> Forall small new ->
    path t new -> on_chain (best s) (h_height t) (BlockHeader_GetHash t) = true -> (exists pre, new = pre ++ [h]) ->
    single_change s s' h r.
Lemma accepted_orphans s s' new moved c : accepted Blake2b env (set_orphans s c) s' new moved -> accepted Blake2b env s s' new moved.
Proof. intros [A B C D E]. constructor; assumption. Qed.
Lemma single_changes fuel now h s r s' hs : Inv s hs -> small h ->
  ProcessSingleHeader Blake2b BAD_BLOCKS env pow_keys fuel now h s = Some (r, s') -> single_change s s' h r.
Proof.
  intros I Sh E. destruct (single_cases _ _ _ _ _ _ _ _ _ _ (i_quiet _ _ I) E) as [N S|prev D L B R|fu c front rest c0 C _ B R].
  - apply sc_none; assumption.
  - subst r. apply sc_extend; [reflexivity| |exact L]. eapply extend_ok; eauto using i_quiet, inv_best_nonempty.
  - subst r. apply (collect_ok small) in C; auto; try apply I; try exact I.
    2:{ constructor. }
    destruct C as [_ C]. destruct (C _ eq_refl) as (F & t & mid & G1 & G2 & G3).
    assert (Ex : exists pre, front :: rest = pre ++ [h]). { destruct G3 as [(_ & _ & G3)|G3]; [discriminate|eauto]. }
    apply sc_reorg with (front :: rest) t; auto. apply (accepted_orphans s s' _ _ c).
    eapply (reorg_ok Blake2b env pow_keys now); [apply quiet_orphans, I| |exact B].
    inversion F; subst. unfold small in H1. change W64 with 18446744073709551616. lia.
Qed.

(** ** A batch *)
Inductive chunk_change (s s' : cstate) (hs : list BlockHeader) (r : outcome EBlockChainStatus) : Prop :=
| cc_none : r <> Ret SUCCESS -> same_stores s s' -> chunk_change s s' hs r
| cc_reorg new : r = Ret SUCCESS -> new <> [] -> (exists pre, hs = pre ++ new) -> 
    accepted Blake2b env s s' new (negb (h_totalDifficulty (last new genesis) <=? work s)) -> chunk_change s s' hs r.
Lemma chunk_changes now hs s r s' : quiet s -> Forall small hs ->
  ProcessChunkedSyncHeaders Blake2b env pow_keys now hs s = (r, s') -> chunk_change s s' hs r.
Proof.
  intros Q Sh E. destruct (chunk_cases _ _ _ _ _ _ _ _ Q E) as [N S|first front rest H1 H2 H3 B R].
  - apply cc_none; assumption.
  - subst r. apply cc_reorg with (front :: rest); [reflexivity|discriminate|rewrite <- H3; apply skip_suffix|].
    rewrite (last_default (front :: rest) genesis front) by discriminate.
    eapply (reorg_ok Blake2b env pow_keys now); [exact Q| |exact B].
    destruct (skip_suffix (best s) hs) as [pre Ep]. rewrite H3 in Ep. rewrite Ep in Sh. apply Forall_app in Sh. destruct Sh as [_ Sh].
    inversion Sh; subst. unfold small in H4. change W64 with 18446744073709551616. lia.
Qed.

(** The committed stores went through accepted chunks only. *)
Inductive progress : cstate -> cstate -> Prop :=
| pg_refl s : progress s s
| pg_chunk s s1 s' hs : chunk_change s s1 hs (Ret SUCCESS) -> Forall small hs -> s_orphans s1 = s_orphans s -> progress s1 s' -> progress s s'
| pg_same s s1 s' : same_stores s s1 -> s_orphans s1 = s_orphans s -> progress s1 s' -> progress s s'.
Lemma chunk_progress now hs s r s' : quiet s -> Forall small hs ->
  ProcessChunkedSyncHeaders Blake2b env pow_keys now hs s = (r, s') -> progress s s'.
Proof.
  intros Q Sh E. pose proof (chunk_orphans _ _ _ _ _ _ _ _ E) as O. destruct (chunk_changes _ _ _ _ _ Q Sh E) as [N S|new R N Sf A].
  - eapply pg_same; [exact S|exact O|apply pg_refl].
  - subst r. eapply pg_chunk; [eapply cc_reorg; eauto|exact Sh|exact O|apply pg_refl].
Qed.
Lemma progress_trans a b c : progress a b -> progress b c -> progress a c.
Proof. induction 1; intros Hbc; [exact Hbc|eapply pg_chunk; eauto|eapply pg_same; eauto]. Qed.
Lemma chunks_progress now hs : forall room chunk s r s', quiet s -> Forall small hs -> Forall small chunk ->
  chunks Blake2b env pow_keys now room chunk hs s = (r, s') -> progress s s'.
Proof.
  induction hs as [|h hs IH]; intros room chunk s r s' Q Sh Sc E; cbn [chunks] in E.
  - destruct chunk as [|x chunk]; [injection E as <- <-; apply pg_refl|]. unfold bind at 1 in E.
    destruct (ProcessChunkedSyncHeaders Blake2b env pow_keys now (rev (x :: chunk)) s) as [r1 s1] eqn:E1.
    assert (P : progress s s1). { refine (chunk_progress now _ s r1 s1 Q _ E1). apply Forall_rev. exact Sc. }
    destruct r1; injection E as <- <-; exact P.
  - inversion Sh; subst.
    assert (Full : (do status <- ProcessChunkedSyncHeaders Blake2b env pow_keys now (rev (h :: chunk));
       match status with SUCCESS | ALREADY_EXISTS => chunks Blake2b env pow_keys now SYNC_BATCH_SIZE [] hs | x => ret x end) s = (r, s') -> progress s s').
    { intros F. unfold bind at 1 in F.
      destruct (ProcessChunkedSyncHeaders Blake2b env pow_keys now (rev (h :: chunk)) s) as [r1 s1] eqn:E1.
      assert (P : progress s s1). { refine (chunk_progress now _ s r1 s1 Q _ E1). apply Forall_rev. constructor; assumption. }
      pose proof (chunk_quiet _ _ _ _ _ _ _ _ E1) as Q1.
      destruct r1 as [[]| |]; try (injection F as <- <-; exact P); eapply progress_trans; [exact P| |exact P|];
        eapply (IH SYNC_BATCH_SIZE []); eauto. }
    destruct room as [|[|room]]; [exact (Full E)|exact (Full E)|]. eapply (IH (S room) (h :: chunk)); eauto.
Qed.
Lemma sync_progress now hs s r s' : quiet s -> Forall small hs ->
  ProcessSyncHeaders Blake2b BAD_BLOCKS env pow_keys now hs s = (r, s') -> progress s s'.
Proof.
  intros Q Sh E. unfold ProcessSyncHeaders in E. destruct hs as [|front hs0]; [injection E as <- <-; apply pg_refl|].
  destruct (existsb _ _); [injection E as <- <-; apply pg_refl|]. destruct (h_height front =? 0); [injection E as <- <-; apply pg_refl|].
  destruct (negb _); [injection E as <- <-; apply pg_refl|].
  exact (chunks_progress now (front :: hs0) SYNC_BATCH_SIZE [] s r s' Q Sh (Forall_nil _) E).
Qed.
Lemma chunk_small s s1 new hs : Forall small hs -> (exists pre, hs = pre ++ new) -> chunk_change s s1 hs (Ret SUCCESS) -> Forall small new.
Proof. intros F [pre ->] _. apply Forall_app in F. apply F. Qed.
Lemma progress_inv s s' : progress s s' -> forall hs, Inv s hs -> exists hs', Inv s' hs'.
Proof.
  induction 1 as [s|s s1 s' new0 C F O P IH|s s1 s' S O P IH]; intros hs I.
  - eauto.
  - destruct C as [N|new R Nn Sf A]; [contradiction|].
    destruct (accepted_inv s s1 hs new _ I A) as (len & p & f & f' & I1 & _).
    + destruct Sf as [pre ->]. apply Forall_app in F. apply F.
    + rewrite O. apply I.
    + rewrite O. apply (i_osmall _ _ I).
    + eapply IH. exact I1.
  - apply (IH hs). apply (same_inv s); [exact I|exact S|rewrite O; apply I|rewrite O; apply (i_osmall _ _ I)].
Qed.

(** ** A restart *)
Lemma create_shape s s' hs : Inv s hs -> Create Blake2b genesis s = (Ret tt, s') ->
  quiet s' /\ best s' = best s /\ s_orphans s' = cache_new 64 /\
  ((headers_db s' = headers_db s /\ committed (s_mmr s') = committed (s_mmr s) /\ length (best s) <> 1%nat) \/
   (headers_db s' = entry genesis :: headers_db s /\ exists f, AddHashes Blake2b (committed (s_mmr s)) (header_leaf genesis) = Ret f /\
     committed (s_mmr s') = f)).
Proof.
  intros I E. pose proof (i_quiet _ _ I) as Q. unfold Create in E. unfold bind, get, put in E. rewrite (quiet_end_id s Q) in E.
  cbn [set_orphans s_candidate] in E. pose proof Q as (QA & QB & QC & QD & QE). rewrite QB in E.
  fold (best s) in E. destruct (_ =? 0) eqn:Z in E.
  - unfold AddBlockHeader, MMR_AddHeader, State_Commit, bind, get, put, lift, mmr_commit in E. cbn in E. rewrite QD in E.
    destruct (AddHashes Blake2b (committed (s_mmr s)) (header_leaf genesis)) as [f| |] eqn:A; try discriminate. cbn in E.
    injection E as <-. unfold quiet, best, headers_db. cbn. rewrite QC, QB. repeat split. right. split; [reflexivity|]. eauto.
  - unfold ret in E. injection E as <-. unfold quiet, best, headers_db. cbn. rewrite QC, QB, QD, QA. repeat split; auto. left. repeat split.
    intros L. unfold best in Z. rewrite L in Z. discriminate.
Qed.
Lemma create_inv s s' hs : Inv s hs -> small genesis -> Create Blake2b genesis s = (Ret tt, s') -> Inv s' hs.
Proof.
  intros I Sg E. pose proof (create_shape _ _ _ I E) as (Q' & B' & O' & D').
  assert (Di : forall x, In x (headers_db s') <-> In x (headers_db s) \/ (headers_db s' <> headers_db s /\ x = entry genesis)).
  { intros x. destruct D' as [(D' & _)|(D' & _)]; rewrite D'; [tauto|]. cbn. split.
    - intros [<-|H]; [|auto]. right. split; [|reflexivity]. intros C. apply (f_equal (@length _)) in C. cbn in C. lia.
    - intros [H|[_ ->]]; auto. }
  constructor.
  - exact Q'.
  - intros k h Hi. apply Di in Hi. destruct Hi as [Hi|[_ Ex]]; [apply (i_keyed _ _ I _ _ Hi)|injection Ex as -> ->; reflexivity].
  - rewrite O'. intros k h [].
  - intros k h Hi. apply Di in Hi. destruct Hi as [Hi|[_ Ex]]; [apply (i_small _ _ I _ _ Hi)|injection Ex as -> ->; exact Sg].
  - rewrite O'. intros k h [].
  - rewrite B'. apply I.
  - intros h Hi. apply Di. left. apply (i_in _ _ I _ Hi).
  - apply I.
  - apply I.
  - intros He k h Hi. apply Di in Hi. destruct Hi as [Hi|[_ Ex]]; [|injection Ex as -> ->; auto].
    destruct (i_valid _ _ I He _ _ Hi) as [->|(p & Hp & R)]; [auto|]. right. exists p. split; [apply Di; auto|exact R].
Qed.
Lemma started_eq : started Blake2b genesis = mkState (mkVer [BlockHeader_GetHash genesis] [BlockHeader_GetHash genesis])
     (mkVer [BlockHeader_GetHash genesis] [BlockHeader_GetHash genesis]) (mkVer [entry genesis] [entry genesis])
     (let f := match AddHashes Blake2b [] (header_leaf genesis) with Ret f => f | _ => [] end in mkVer f f) false (cache_new 64).
Proof. unfold started, Create, fresh, bind, get, put, AddBlockHeader, MMR_AddHeader, State_Commit, lift. reflexivity. Qed.
Lemma started_inv : small genesis -> h_height genesis = 0 -> Inv (started Blake2b genesis) [genesis].
Proof.
  intros Sg H0. rewrite started_eq. constructor; cbn.
  - unfold quiet. cbn. auto.
  - intros k h [Ex|[]]. injection Ex as <- <-. reflexivity.
  - intros k h [].
  - intros k h [Ex|[]]. injection Ex as <- <-. exact Sg.
  - intros k h [].
  - reflexivity.
  - intros h [<-|[]]. cbn. auto.
  - reflexivity.
  - intros i h Ei. destruct i as [|i]; cbn in Ei; [injection Ei as <-; exact H0|destruct i; discriminate].
  - intros He k h [Ex|[]]. injection Ex as <- <-. auto.
Qed.

(** ** All events *)
Definition small_event (e : event) : Prop := Forall small (brings e).
Lemma handle_inv fuel e s r s' hs : Inv s hs -> small genesis -> small_event e ->
  handle Blake2b BAD_BLOCKS env pow_keys fuel genesis e s = Some (r, s') -> exists hs', Inv s' hs'.
Proof.
  intros I Sg Se E. destruct e as [now h|now l|]; cbn [handle] in E.
  - inversion Se; subst. destruct (single_orphans_ok _ _ _ _ _ _ _ I H1 E) as [Ko So].
    destruct (single_changes _ _ _ _ _ _ _ I H1 E) as [N S|R A L|new t R A F P O X].
    + exists hs. apply (same_inv s); assumption.
    + destruct (accepted_inv _ _ _ _ _ I A Se Ko So) as (len & p & f & f' & I' & _). eauto.
    + destruct (accepted_inv _ _ _ _ _ I A F Ko So) as (len & p & f & f' & I' & _). eauto.
  - apply some_inj in E. apply (progress_inv s s') with hs; [|exact I]. eapply sync_progress; eauto. apply I.
  - destruct (Create Blake2b genesis s) as [[[]| |] s1] eqn:C; try discriminate. injection E as <- <-.
    exists hs. eapply create_inv; eauto.
Qed.
Lemma handle_all_inv fuel es : forall s rs s' hs, Inv s hs -> small genesis -> Forall small_event es ->
  handle_all Blake2b BAD_BLOCKS env pow_keys fuel genesis es s = Some (rs, s') -> exists hs', Inv s' hs'.
Proof.
  induction es as [|e es IH]; intros s rs s' hs I Sg Se E; cbn [handle_all] in E.
  - injection E as _ <-. eauto.
  - inversion Se; subst. destruct (handle _ _ _ _ _ _ e s) as [[r1 s1]|] eqn:H; [|discriminate].
    destruct (handle_inv _ _ _ _ _ _ I Sg H1 H) as [hs1 I1].
    destruct r1; [| |discriminate]; destruct (handle_all _ _ _ _ _ _ es s1) as [[rs2 s2]|] eqn:HA; try discriminate;
      injection E as _ <-; eapply IH; eauto.
Qed.
End Inv.
