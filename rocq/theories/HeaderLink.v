(** The header MMR, the links of the best chain, rejected batches and termination. *)
From Verif Require Import Base Bytes MMRIndexModel MMRHashModel MMRHashSpec MMRHashProofs CodecModel ConsensusModel CuckooModel
  DifficultyModel CacheModel CacheSpec HeaderModel HeaderSpec HeaderProofs HeaderInv HeaderWork.
Local Open Scope N_scope.

Lemma nth_error_last {A} (l : list A) d : l <> [] -> nth_error l (length l - 1) = Some (last l d).
Proof.
  induction l as [|a l IH]; intros H; [contradiction|]. destruct l as [|b l]; [reflexivity|].
  specialize (IH ltac:(discriminate)). cbn [length Nat.sub] in *. rewrite Nat.sub_0_r in *. exact IH.
Qed.
Section Link.
Variable Blake2b : bytes -> bytes.
Variable BAD_BLOCKS : bytes -> bool.
Variable env : Environment.
Variable pow_keys : BlockHeader -> sip.
Variable genesis : BlockHeader.
Notation Inv := (Inv env genesis).

(** ** The MMR *)
Definition leaves (hs : list BlockHeader) : list bytes := map header_leaf hs.
Definition commits (hs : list BlockHeader) : Prop :=
  forall i h, (0 < i)%nat -> nth_error hs i = Some h ->
    exists ts, is_mmr ts (leaves (firstn i hs)) /\ h_previousRoot h = mmr_root Blake2b ts.
Definition has_mmr (s : cstate) (hs : list BlockHeader) : Prop :=
  AppendAll Blake2b [] (leaves hs) = Ret (committed (s_mmr s)) /\ commits hs.

Lemma added_mmr (Hnz : forall m, Blake2b m <> repeat 0 32) new : forall f p f' pre,
  (0 < length pre)%nat -> AppendAll Blake2b [] (leaves pre) = Ret f -> added Blake2b env (length pre) f p new f' -> Forall small new ->
  commits pre -> AppendAll Blake2b [] (leaves (pre ++ new)) = Ret f' /\ commits (pre ++ new).
Proof.
  induction new as [|h new IH]; intros f p f' pre L0 Ap Ad Sn C; cbn [added] in Ad.
  - subst f'. rewrite app_nil_r. auto.
  - destruct Ad as (A1 & A2 & A3 & A4 & f1 & A5 & A6). inversion Sn; subst. unfold small in H1.
    assert (Hlt : 2 * N.of_nat (length (leaves pre ++ [])) < W64).
    { rewrite app_nil_r. unfold leaves. rewrite map_length. change W64 with 18446744073709551616. lia. }
    destruct (root_after_appends Blake2b (leaves pre) [] Hnz Hlt) as (file & ts & R1 & R2 & R3).
    rewrite app_nil_r in R1. rewrite R1 in Ap. apply ret_inj in Ap. subst file.
    unfold HeaderRoot in A4. rewrite A1 in A4. rewrite sub64_small in A4 by (change W64 with 18446744073709551616; lia).
    rewrite add64_small in A4 by (change W64 with 18446744073709551616; lia).
    replace (N.of_nat (length pre) - 1 + 1) with (N.of_nat (length (leaves pre))) in A4 by (unfold leaves; rewrite map_length; lia).
    rewrite R3 in A4. apply ret_inj in A4.
    replace (pre ++ h :: new) with ((pre ++ [h]) ++ new) by (rewrite <- app_assoc; reflexivity).
    apply (IH f1 h f').
    + rewrite app_length. lia.
    + unfold leaves in *. rewrite map_app. rewrite (AppendAll_app _ _ _ _ _ R1). cbn [map].
      rewrite (AppendAll_cons _ _ _ _ _ A5). reflexivity.
    + rewrite app_length, Nat.add_1_r. exact A6.
    + assumption.
    + intros i x Hi E. rewrite nth_app in E. destruct (i <? length pre)%nat eqn:Ei.
      * apply Nat.ltb_lt in Ei. rewrite firstn_app. replace (i - length pre)%nat with 0%nat by lia. cbn [firstn]. rewrite app_nil_r.
        apply (C i x Hi E).
      * apply Nat.ltb_ge in Ei. destruct (i - length pre)%nat as [|j] eqn:Ej; cbn in E; [|destruct j; discriminate].
        injection E as <-. assert (i = length pre) by lia. subst i. exists ts. rewrite firstn_app, firstn_all, Nat.sub_diag. cbn [firstn].
        rewrite app_nil_r. auto.
Qed.
Lemma inv_length s hs : Inv s hs -> 2 * N.of_nat (length hs) < W64.
Proof.
  intros I. destruct (Nat.eq_dec (length hs) 0) as [E|E]; [rewrite E; reflexivity|].
  destruct (nth_error hs (length hs - 1)) as [h|] eqn:N.
  - pose proof (i_height _ _ _ _ I _ _ N) as H. pose proof (i_small _ _ _ _ I _ _ (i_in _ _ _ _ I _ (nth_error_In _ _ N))) as S.
    unfold small in S. change W64 with 18446744073709551616. lia.
  - apply nth_error_None in N. lia.
Qed.
Lemma commits_firstn n hs : commits hs -> commits (firstn n hs).
Proof.
  intros C i h Hi E. rewrite nth_firstn in E. destruct (i <? n)%nat eqn:Ei; [|discriminate]. apply Nat.ltb_lt in Ei.
  rewrite firstn_firstn. rewrite Nat.min_l by lia. apply (C i h Hi E).
Qed.
Lemma rewound s hs len f : Inv s hs -> AppendAll Blake2b [] (leaves hs) = Ret (committed (s_mmr s)) -> (len <= length hs)%nat ->
  (f = committed (s_mmr s) \/ RewindHashes (committed (s_mmr s)) (N.of_nat len) = Ret f) ->
  (f = committed (s_mmr s) -> lidx_position (LeafIndex_At (N.of_nat len)) = GetSize (committed (s_mmr s)) \/ len = length hs) ->
  AppendAll Blake2b [] (leaves (firstn len hs)) = Ret f.
Proof.
  intros I Ap Le F1 F2. set (xs := leaves (firstn len hs)). set (ys := leaves (skipn len hs)).
  assert (E : leaves hs = xs ++ ys). { unfold xs, ys, leaves. rewrite <- map_app, firstn_skipn. reflexivity. }
  assert (Hlt : 2 * N.of_nat (length (xs ++ ys)) < W64). { rewrite <- E. unfold leaves. rewrite map_length. eapply inv_length, I. }
  destruct (rewind_correct Blake2b xs ys Hlt) as (f1 & f2 & R1 & R2 & R3).
  assert (Lx : length xs = len). { unfold xs, leaves. rewrite map_length, firstn_length. lia. }
  rewrite E, (AppendAll_app _ _ _ _ _ R1), R2 in Ap. apply ret_inj in Ap. subst f2. rewrite Lx in R3. rewrite R1. f_equal.
  assert (Cases : RewindHashes (committed (s_mmr s)) (N.of_nat len) = Ret f \/ (f = committed (s_mmr s) /\ len = length hs)).
  { destruct F1 as [F1|F1]; [|auto]. destruct (F2 F1) as [P|P]; [|auto]. left. unfold RewindHashes. cbv zeta. rewrite P.
    rewrite N.leb_refl. unfold GetSize. rewrite Nat2N.id, firstn_all, F1. reflexivity. }
  destruct Cases as [C|[C1 C2]].
  - rewrite R3 in C. apply ret_inj in C. exact C.
  - subst f. unfold ys in R2. rewrite C2, skipn_all in R2. cbn in R2. apply ret_inj in R2. exact R2.
Qed.
Lemma accepted_mmr s s' hs new moved : (forall m, Blake2b m <> repeat 0 32) -> Inv s hs -> has_mmr s hs ->
  accepted Blake2b env s s' new moved -> Forall small new ->
  keyed (cache_items_map (s_orphans s')) -> (forall k h, In (k, h) (cache_items_map (s_orphans s')) -> small h) ->
  exists hs', Inv s' hs' /\ has_mmr s' hs'.
Proof.
  intros Hnz I [Ap C] A Sn Ko So. pose proof A as A0.
  destruct (accepted_inv Blake2b env pow_keys genesis _ _ _ _ _ I A Sn Ko So) as (len & p & f & f' & I' & D & Ad & L1 & L0 & F1 & F2 & M).
  exists (chain_after moved len hs new). split; [exact I'|]. unfold has_mmr. rewrite M. destruct moved; cbn [chain_after]; [|auto].
  assert (Lh : length hs = length (best s)) by (rewrite <- (i_best _ _ _ _ I), map_length; reflexivity). rewrite <- Lh in L1, F2.
  pose proof (rewound s hs len f I Ap L1 F1 F2) as Ap1.
  assert (Lf : length (firstn len hs) = len) by (rewrite firstn_length; lia).
  apply (added_mmr Hnz new f p f' (firstn len hs)); rewrite ?Lf; auto. apply commits_firstn, C.
Qed.
Lemma progress_mmr s s' : progress Blake2b env genesis s s' -> (forall m, Blake2b m <> repeat 0 32) -> forall hs, Inv s hs -> has_mmr s hs ->
  exists hs', Inv s' hs' /\ has_mmr s' hs'.
Proof.
  intros P Hnz. induction P as [s|s s1 s' new0 C F O P IH|s s1 s' S O P IH]; intros hs I Mo.
  - eauto.
  - destruct C as [N|new R Nn Sf A]; [contradiction|].
    assert (Sn : Forall small new). { destruct Sf as [pre ->]. apply Forall_app in F. apply F. }
    destruct (accepted_mmr s s1 hs new _ Hnz I Mo A Sn) as (hs1 & I1 & M1).
    { rewrite O. apply I. } { rewrite O. apply (i_osmall _ _ _ _ I). }
    eapply IH; eauto.
  - apply (IH hs).
    + apply (same_inv env genesis s); [exact I|exact S|rewrite O; apply I|rewrite O; apply (i_osmall _ _ _ _ I)].
    + destruct S as (_ & _ & _ & S4 & _). unfold has_mmr. rewrite S4. exact Mo.
Qed.
Lemma handle_mmr fuel e s r s' hs : (forall m, Blake2b m <> repeat 0 32) -> Inv s hs -> small genesis -> small_event e -> has_mmr s hs ->
  (e = Restart -> (1 < length (best s))%nat) ->
  handle Blake2b BAD_BLOCKS env pow_keys fuel genesis e s = Some (r, s') -> exists hs', Inv s' hs' /\ has_mmr s' hs'.
Proof.
  intros Hnz I Sg Se Mo Re E. destruct e as [now h|now l|]; cbn [handle] in E.
  - inversion Se; subst. destruct (single_orphans_ok _ _ _ _ _ _ _ _ _ _ _ _ I H1 E) as [Ko So].
    destruct (single_changes _ _ _ _ _ _ _ _ _ _ _ _ I H1 E) as [N S|R A L|new t R A F P O X].
    + exists hs. split; [apply (same_inv env genesis s); assumption|]. destruct S as (_ & _ & _ & S4 & _). unfold has_mmr. rewrite S4. exact Mo.
    + eapply accepted_mmr; eauto.
    + eapply accepted_mmr; eauto.
  - apply some_inj in E. eapply progress_mmr; eauto. eapply sync_progress; eauto. apply I.
  - destruct (Create Blake2b genesis s) as [[[]| |] s1] eqn:C; try discriminate. injection E as <- <-.
    exists hs. split; [exact (create_inv Blake2b BAD_BLOCKS env pow_keys genesis _ _ _ I Sg C)|].
    specialize (Re eq_refl). unfold Create, bind, get, put in C. rewrite (quiet_end_id s (i_quiet _ _ _ _ I)) in C.
    cbn [set_orphans s_candidate] in C. pose proof (i_quiet _ _ _ _ I) as (QA & QB & QC & QD & QE). rewrite QB in C. fold (best s) in C.
    assert (Lh : length hs = length (best s)) by (rewrite <- (i_best _ _ _ _ I), map_length; reflexivity).
    pose proof (inv_length _ _ I) as B. rewrite Lh in B.
    rewrite sub64_small in C by lia. replace (N.of_nat (length (best s)) - 1 =? 0) with false in C by (symmetry; apply N.eqb_neq; lia).
    unfold ret in C. injection C as <-. exact Mo.
Qed.

(** ** Links *)
Lemma linked_firstn n hs : linked hs -> linked (firstn n hs).
Proof.
  revert n. induction hs as [|a hs IH]; intros n H; [destruct n; exact I|]. destruct n as [|n]; [exact I|].
  destruct hs as [|b hs]; [destruct n; exact I|]. destruct H as (H1 & H2 & H3 & H4). destruct n as [|n]; [exact I|].
  specialize (IH (S n) H4). cbn [firstn] in *. cbn [linked]. auto.
Qed.
Lemma linked_app a p new : linked (a ++ [p]) -> linked (p :: new) -> linked (a ++ p :: new).
Proof.
  intros H1 H2. induction a as [|x a IH]; [exact H2|]. destruct a as [|y a]; cbn [app] in *.
  - destruct H1 as (A & B & C & _). cbn [linked] in *. auto.
  - destruct H1 as (A & B & C & D). specialize (IH D). cbn [linked] in *. auto.
Qed.
Lemma added_linked new : forall len f p f', added Blake2b env len f p new f' -> env <> AUTOMATED_TESTING -> small p -> Forall small new ->
  path p new -> linked (p :: new).
Proof.
  induction new as [|h new IH]; intros len f p f' A He Sp Sn P; [exact I|].
  cbn [added] in A. destruct A as (_ & A2 & A3 & _ & f1 & _ & A). inversion Sn; subst. destruct P as [P1 P2].
  cbn [linked]. split; [exact P1|]. split; [|split; [apply A3, He|]].
  - rewrite add64_small in A2; [exact A2|]. unfold small in Sp. change W64 with 18446744073709551616. lia.
  - apply (IH _ _ _ _ A He H1 H2 P2).
Qed.
Lemma path_hash t p new : BlockHeader_GetHash t = BlockHeader_GetHash p -> path t new -> path p new.
Proof. intros E. destruct new as [|x new]; [auto|]. cbn [path]. rewrite E. auto. Qed.
Lemma firstn_index {A} (l : list A) i x : nth_error l i = Some x -> firstn (S i) l = firstn i l ++ [x].
Proof.
  revert i. induction l as [|a l IH]; intros i E; [destruct i; discriminate|]. destruct i as [|i]; cbn in E.
  - injection E as ->. reflexivity.
  - change (firstn (S (S i)) (a :: l)) with (a :: firstn (S i) l). rewrite (IH i E). reflexivity.
Qed.
Lemma accepted_linked s s' hs new moved t i x : Inv s hs -> linked hs -> env <> AUTOMATED_TESTING -> unique_hashes s ->
  accepted Blake2b env s s' new moved -> Forall small new -> path t new -> nth_error hs i = Some x -> BlockHeader_GetHash x = BlockHeader_GetHash t ->
  keyed (cache_items_map (s_orphans s')) -> (forall k h, In (k, h) (cache_items_map (s_orphans s')) -> small h) ->
  exists hs', Inv s' hs' /\ linked hs'.
Proof.
  intros I L He U A Sn P Nx Hx Ko So. pose proof A as A0.
  destruct (accepted_inv Blake2b env pow_keys genesis _ _ _ _ _ I A Sn Ko So) as (len & p & f & f' & I' & D & Ad & L1 & L0 & F1 & F2 & M).
  exists (chain_after moved len hs new). split; [exact I'|]. destruct moved; cbn [chain_after]; [|exact L].
  destruct new as [|h0 new]; [destruct (accepted_nonempty _ _ _ _ _ _ A0 eq_refl)|].
  pose proof (db_find_in _ _ _ D) as Hp. pose proof P as (P1 & _). rewrite P1, <- Hx in Hp.
  assert (p = x). { eapply U; [exact Hp|]. apply (i_in _ _ _ _ I _ (nth_error_In _ _ Nx)). } subst p.
  pose proof (i_height _ _ _ _ I _ _ Nx) as Hh. pose proof Ad as (E1 & E2 & _).
  pose proof (i_small _ _ _ _ I _ _ Hp) as Sx.
  assert (len = S i). { rewrite add64_small in E2; [lia|]. unfold small in Sx. change W64 with 18446744073709551616. lia. } subst len.
  rewrite (firstn_index _ _ _ Nx). rewrite <- app_assoc. apply linked_app.
  - rewrite <- (firstn_index _ _ _ Nx). apply linked_firstn, L.
  - eapply added_linked; eauto. apply (path_hash t); [symmetry; exact Hx|exact P].
Qed.
Lemma handle_linked fuel e s r s' hs : Inv s hs -> small genesis -> small_event e -> single e -> env <> AUTOMATED_TESTING ->
  unique_hashes s -> linked hs ->
  handle Blake2b BAD_BLOCKS env pow_keys fuel genesis e s = Some (r, s') -> exists hs', Inv s' hs' /\ linked hs'.
Proof.
  intros I Sg Se Si He U L E. destruct e as [now h|now l|]; cbn [handle] in E; [|destruct Si|].
  - inversion Se; subst. destruct (single_orphans_ok _ _ _ _ _ _ _ _ _ _ _ _ I H1 E) as [Ko So].
    destruct (single_changes _ _ _ _ _ _ _ _ _ _ _ _ I H1 E) as [N S|R A Lp|new t R A F P O X].
    + exists hs. split; [apply (same_inv env genesis s); assumption|exact L].
    + destruct (tip_in _ _ _ _ I) as (t & Et & T1 & T2).
      assert (NE : hs <> []) by (intros ->; discriminate (i_genesis _ _ _ _ I)).
      apply (accepted_linked s s' hs [h] true t (length hs - 1) t); auto.
      * cbn. split; [|exact Logic.I]. rewrite Lp. exact T1.
      * rewrite <- Et. apply nth_error_last, NE.
    + unfold on_chain in O. destruct (nth_error (best s) (N.to_nat (h_height t))) as [k|] eqn:Nt; [|discriminate]. apply bytes_eqb_spec in O. subst k.
      rewrite <- (i_best _ _ _ _ I) in Nt. rewrite nth_error_map in Nt. destruct (nth_error hs (N.to_nat (h_height t))) as [x|] eqn:Nx; [|discriminate].
      cbn in Nt. injection Nt as Nt. eapply accepted_linked; eauto.
  - destruct (Create Blake2b genesis s) as [[[]| |] s1] eqn:C; try discriminate. injection E as <- <-.
    exists hs. split; [exact (create_inv Blake2b BAD_BLOCKS env pow_keys genesis _ _ _ I Sg C)|exact L].
Qed.

(** ** Runs *)
Lemma run_mmr fuel es : forall s rs s' hs, (forall m, Blake2b m <> repeat 0 32) -> Inv s hs -> small genesis -> Forall small_event es ->
  has_mmr s hs -> late_restarts Blake2b BAD_BLOCKS env pow_keys genesis fuel es s ->
  handle_all Blake2b BAD_BLOCKS env pow_keys fuel genesis es s = Some (rs, s') -> exists hs', Inv s' hs' /\ has_mmr s' hs'.
Proof.
  induction es as [|e es IH]; intros s rs s' hs Hnz I Sg Se Mo Re E; cbn [handle_all] in E.
  - injection E as _ <-. eauto.
  - inversion Se; subst. cbn [late_restarts] in Re. destruct Re as [Re1 Re2].
    destruct (handle _ _ _ _ _ _ e s) as [[r1 s1]|] eqn:H; [|discriminate].
    destruct (handle_mmr _ _ _ _ _ _ Hnz I Sg H1 Mo Re1 H) as (hs1 & I1 & M1).
    destruct r1; [| |discriminate]; destruct (handle_all _ _ _ _ _ _ es s1) as [[rs2 s2]|] eqn:HA; try discriminate;
      injection E as _ <-; eapply IH; eauto.
Qed.
Lemma run_linked fuel es : forall s rs s' hs, Inv s hs -> small genesis -> Forall small_event es -> Forall single es -> env <> AUTOMATED_TESTING ->
  linked hs -> handle_all Blake2b BAD_BLOCKS env pow_keys fuel genesis es s = Some (rs, s') -> unique_hashes s' -> exists hs', Inv s' hs' /\ linked hs'.
Proof.
  induction es as [|e es IH]; intros s rs s' hs I Sg Se Si He L E U; cbn [handle_all] in E.
  - injection E as _ <-. eauto.
  - inversion Se; subst. inversion Si; subst. destruct (handle _ _ _ _ _ _ e s) as [[r1 s1]|] eqn:H; [|discriminate].
    assert (R : exists rs2, handle_all Blake2b BAD_BLOCKS env pow_keys fuel genesis es s1 = Some (rs2, s')).
    { destruct r1; [| |discriminate]; destruct (handle_all _ _ _ _ _ _ es s1) as [[rs2 s2]|]; try discriminate; injection E as _ <-; eauto. }
    destruct R as [rs2 R]. destruct (handle_inv _ _ _ _ _ _ _ _ _ _ _ I Sg H1 H) as [hs1 I1].
    destruct (run_most _ _ _ _ _ _ _ _ _ _ _ I1 Sg H2 He R) as [[pre D] _].
    destruct (handle_grows _ _ _ _ _ _ _ _ _ _ _ I H1 H) as [pre1 D1].
    assert (Us : unique_hashes s). { apply (unique_before _ _ _ D1), (unique_before _ _ _ D U). }
    destruct (handle_linked _ _ _ _ _ _ I Sg H1 H3 He Us L H) as (hs2 & I2 & L2). eapply IH; eauto.
Qed.
Lemma started_mmr : small genesis -> has_mmr (started Blake2b genesis) [genesis].
Proof.
  intros Sg. assert (B : 2 * N.of_nat (length [header_leaf genesis]) < W64) by reflexivity.
  destruct (append_correct Blake2b [header_leaf genesis] B) as (ts & _ & E).
  split.
  - unfold leaves. cbn [map]. assert (AH : exists f, AddHashes Blake2b [] (header_leaf genesis) = Ret f).
    { unfold AppendAll in E. cbn [fold_left obind] in E. destruct (AddHashes Blake2b [] (header_leaf genesis)); try discriminate. eauto. }
    destruct AH as [f AH]. unfold AppendAll. cbn [fold_left obind]. rewrite AH.
    rewrite started_eq. cbn [s_mmr committed]. rewrite AH. reflexivity.
  - intros i h Hi E2. destruct i as [|i]; [lia|]. destruct i; discriminate.
Qed.

(** ** Rejected batches *)
Lemma same_trans a b c : same_stores a b -> same_stores b c -> same_stores a c.
Proof. intros (A & B & C & D & E) (A' & B' & C' & D' & E'). repeat split; congruence. Qed.
Lemma chunks_fail now hs : forall room chunk s r s', quiet s ->
  chunks Blake2b env pow_keys now room chunk hs s = (r, s') -> r <> Ret SUCCESS ->
  exists h1 h2, hs = h1 ++ h2 /\ ((h1 = [] /\ same_stores s s') \/
    ((room <= length h1)%nat /\ exists s1, chunks Blake2b env pow_keys now room chunk h1 s = (Ret SUCCESS, s1) /\ same_stores s1 s')).
Proof.
  induction hs as [|h hs IH]; intros room chunk s r s' Q E N; cbn [chunks] in E.
  - destruct chunk as [|x chunk]; [injection E as <- <-; contradiction|]. unfold bind at 1 in E.
    destruct (ProcessChunkedSyncHeaders Blake2b env pow_keys now (rev (x :: chunk)) s) as [r1 s1] eqn:E1.
    exists [], []. split; [reflexivity|]. left. split; [reflexivity|].
    destruct (chunk_cases _ _ _ _ _ _ _ _ Q E1) as [_ S|first front rest H1 H2 H3 B R].
    + destruct r1; injection E as <- <-; exact S.
    + subst r1. unfold ret in E. injection E as <- <-. contradiction.
  - set (m := do status <- ProcessChunkedSyncHeaders Blake2b env pow_keys now (rev (h :: chunk));
       match status with SUCCESS | ALREADY_EXISTS => chunks Blake2b env pow_keys now SYNC_BATCH_SIZE [] hs | x => ret x end).
    assert (Full : m s = (r, s') -> (room <= 1)%nat -> exists h1 h2, h :: hs = h1 ++ h2 /\ ((h1 = [] /\ same_stores s s') \/
      ((room <= length h1)%nat /\ exists s1, chunks Blake2b env pow_keys now room chunk h1 s = (Ret SUCCESS, s1) /\ same_stores s1 s'))).
    { intros F Hr. unfold m, bind at 1 in F.
      destruct (ProcessChunkedSyncHeaders Blake2b env pow_keys now (rev (h :: chunk)) s) as [r1 s1] eqn:E1.
      pose proof (chunk_quiet _ _ _ _ _ _ _ _ E1) as Q1.
      assert (Unch : forall l s2, (r1 = Ret SUCCESS \/ r1 = Ret ALREADY_EXISTS) -> chunks Blake2b env pow_keys now SYNC_BATCH_SIZE [] l s1 = (Ret SUCCESS, s2) ->
        chunks Blake2b env pow_keys now room chunk (h :: l) s = (Ret SUCCESS, s2)).
      { intros l s2 Hr1 Hl. cbn [chunks]. destruct room as [|[|room]]; [| |lia]; unfold bind at 1; rewrite E1; destruct Hr1; subst r1; exact Hl. }
      assert (Go : (r1 = Ret SUCCESS \/ r1 = Ret ALREADY_EXISTS) -> chunks Blake2b env pow_keys now SYNC_BATCH_SIZE [] hs s1 = (r, s') ->
        exists h1 h2, h :: hs = h1 ++ h2 /\ ((h1 = [] /\ same_stores s s') \/
         ((room <= length h1)%nat /\ exists s1, chunks Blake2b env pow_keys now room chunk h1 s = (Ret SUCCESS, s1) /\ same_stores s1 s'))).
      { intros Hr1 G. destruct (IH _ _ _ _ _ Q1 G N) as (h1 & h2 & Eh & [[E0 S]|[_ (s2 & C2 & S)]]).
        - exists [h], hs. split; [reflexivity|]. right. split; [cbn; lia|]. exists s1. split; [|exact S]. apply Unch; [exact Hr1|reflexivity].
        - exists (h :: h1), h2. split; [cbn; f_equal; exact Eh|]. right. split; [cbn; lia|]. exists s2. split; [|exact S]. apply Unch; assumption. }
      destruct r1 as [[]| |]; try (apply Go; [auto|exact F]).
      - unfold ret in F. injection F as <- <-. exists [], (h :: hs). split; [reflexivity|]. left. split; [reflexivity|].
        destruct (chunk_cases _ _ _ _ _ _ _ _ Q E1) as [_ S|first front rest H1 H2 H3 B R]; [exact S|discriminate].
      - unfold ret in F. injection F as <- <-. exists [], (h :: hs). split; [reflexivity|]. left. split; [reflexivity|].
        destruct (chunk_cases _ _ _ _ _ _ _ _ Q E1) as [_ S|first front rest H1 H2 H3 B R]; [exact S|discriminate].
      - injection F as <- <-. exists [], (h :: hs). split; [reflexivity|]. left. split; [reflexivity|].
        destruct (chunk_cases _ _ _ _ _ _ _ _ Q E1) as [_ S|first front rest H1 H2 H3 B R]; [exact S|discriminate].
      - injection F as <- <-. exists [], (h :: hs). split; [reflexivity|]. left. split; [reflexivity|].
        destruct (chunk_cases _ _ _ _ _ _ _ _ Q E1) as [_ S|first front rest H1 H2 H3 B R]; [exact S|discriminate]. }
    destruct room as [|[|room]]; [apply Full; [exact E|lia]|apply Full; [exact E|lia]|].
    destruct (IH _ _ _ _ _ Q E N) as (h1 & h2 & Eh & [[E0 S]|[Hr (s2 & C2 & S)]]).
    + exists [], (h :: hs). split; [reflexivity|]. left. auto.
    + exists (h :: h1), h2. split; [cbn; f_equal; exact Eh|]. right. split; [cbn; lia|]. exists s2. split; [exact C2|exact S].
Qed.
Lemma consecutive_prefix a b : heights_consecutive (a ++ b) = true -> heights_consecutive a = true.
Proof.
  induction a as [|x a IH]; [reflexivity|]. destruct a as [|y a]; [reflexivity|]. cbn [app heights_consecutive] in *.
  intros H. apply andb_prop in H. destruct H as [H1 H2]. rewrite H1. apply IH, H2.
Qed.
Lemma sync_fail now hs s r s' : quiet s -> ProcessSyncHeaders Blake2b BAD_BLOCKS env pow_keys now hs s = (r, s') -> r <> Ret SUCCESS ->
  exists h1 h2 s1, hs = h1 ++ h2 /\ ProcessSyncHeaders Blake2b BAD_BLOCKS env pow_keys now h1 s = (Ret SUCCESS, s1) /\ same_stores s1 s' /\
    (h1 = [] \/ (SYNC_BATCH_SIZE <= length h1)%nat) /\ (h1 = [] -> s1 = s).
Proof.
  intros Q E N. unfold ProcessSyncHeaders in E.
  assert (Triv : same_stores s s' -> exists h1 h2 s1, hs = h1 ++ h2 /\ ProcessSyncHeaders Blake2b BAD_BLOCKS env pow_keys now h1 s = (Ret SUCCESS, s1) /\
    same_stores s1 s' /\ (h1 = [] \/ (SYNC_BATCH_SIZE <= length h1)%nat) /\ (h1 = [] -> s1 = s)).
  { intros S. exists [], hs, s. split; [reflexivity|]. split; [reflexivity|]. auto. }
  destruct hs as [|front hs0]; [injection E as <- <-; contradiction|]. set (hs := front :: hs0) in *.
  destruct (existsb (fun h => BAD_BLOCKS (BlockHeader_GetHash h)) hs) eqn:EB; [injection E as <- <-; apply Triv, same_stores_refl|].
  destruct (h_height front =? 0) eqn:EZ; [injection E as <- <-; apply Triv, same_stores_refl|].
  destruct (heights_consecutive hs) eqn:EC; cbn [negb] in E; [|injection E as <- <-; apply Triv, same_stores_refl].
  destruct (chunks_fail now hs _ _ _ _ _ Q E N) as (h1 & h2 & Eh & [[E0 S]|[Hr (s2 & C2 & S)]]); [apply Triv, S|].
  exists h1, h2, s2. split; [exact Eh|]. destruct h1 as [|x h1]; [cbn in Hr; unfold SYNC_BATCH_SIZE in Hr; lia|].
  split; [|split; [exact S|split; [right; exact Hr|discriminate]]]. unfold ProcessSyncHeaders.
  assert (x = front) by (unfold hs in Eh; cbn in Eh; injection Eh as <- _; reflexivity). subst x.
  rewrite EZ. rewrite Eh in EB, EC. rewrite existsb_app in EB. apply orb_false_elim in EB. destruct EB as [EB _]. rewrite EB.
  rewrite (consecutive_prefix _ _ EC). exact C2.
Qed.

End Link.
(** ** Termination *)
Lemma collect_terminates l db (h : BlockHeader) : forall fuel (c0 c : cache bytes BlockHeader) temp acc,
  (forall x t, (x = h \/ exists k, In (k, x) db \/ In (k, x) (cache_items_map c0)) ->
     In (h_previousBlockHash x, t) db \/ In (h_previousBlockHash x, t) (cache_items_map c0) -> h_height t < h_height x) ->
  (forall x, In x (cache_items_map c) -> In x (cache_items_map c0)) ->
  (temp = h \/ exists k, In (k, temp) db \/ In (k, temp) (cache_items_map c0)) ->
  (N.to_nat (h_height temp) < fuel)%nat ->
  collect fuel l db c temp acc <> None.
Proof.
  induction fuel as [|n IH]; intros c0 c temp acc Hd Hc Ht Hf; [lia|]. cbn [collect].
  destruct (on_chain _ _ _); [discriminate|]. cbv zeta.
  destruct (GetOrphanHeader c (h_previousBlockHash temp)) as [[[t|] c1]| |] eqn:G; try discriminate.
  - apply orphan_get in G. destruct G as [G1 G2]. specialize (G2 t eq_refl). apply Hc in G2.
    pose proof (Hd _ _ Ht (or_intror G2)). apply (IH c0 c1); eauto; lia.
  - apply orphan_get in G. destruct G as [G1 _]. destruct (db_find db (h_previousBlockHash temp)) as [t|] eqn:D; [|discriminate].
    apply db_find_in in D. pose proof (Hd _ _ Ht (or_introl D)). apply (IH c0 c1); eauto; lia.
Qed.
