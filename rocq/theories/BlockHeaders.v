(** What header processing does to the stores the block processor reads. *)
From Verif Require Import Base Bytes MMRIndexModel MMRHashModel CodecModel ConsensusModel CuckooModel DifficultyModel CacheModel HeaderModel HeaderSpec HeaderProofs HeaderInv
  ValidationModel UtxoModel UtxoSpec BlockModel BlockSpec.
Local Open Scope N_scope.

Section Headers.
Variable Blake2b : bytes -> bytes.
Variable BAD_BLOCKS : bytes -> bool.
Variable env : Environment.
Variable pow_keys : BlockHeader -> sip.
Variable HS : list BlockHeader.
Hypothesis Small : forall h, In h HS -> small h.

Record HI (c : cstate) : Prop := mkHI {
  hi_quiet : quiet c;
  hi_best : best c <> [];
  hi_keyed : keyed (headers_db c);
  hi_in : forall k h, In (k, h) (headers_db c) -> In h HS;
  hi_okeyed : keyed (cache_items_map (s_orphans c));
  hi_oin : forall k h, In (k, h) (cache_items_map (s_orphans c)) -> In h HS }.
(** The confirmed chain stays; headers are only added. *)
Definition grows (c c' : cstate) : Prop :=
  HI c' /\ s_confirmed c' = s_confirmed c /\ exists more, headers_db c' = more ++ headers_db c.
Lemma grows_refl c : HI c -> grows c c.
Proof. intros I. split; [exact I|]. split; [reflexivity|exists []; reflexivity]. Qed.
Lemma grows_trans a b c : grows a b -> grows b c -> grows a c.
Proof.
  intros (_ & A2 & m & A3) (B1 & B2 & m' & B3). split; [exact B1|]. split; [congruence|]. exists (m' ++ m). rewrite B3, A3, app_assoc. reflexivity.
Qed.
Definition orphans_ok (c : cstate) : Prop :=
  keyed (cache_items_map (s_orphans c)) /\ forall k h, In (k, h) (cache_items_map (s_orphans c)) -> In h HS.
Lemma same_grows c c' : HI c -> same_stores c c' -> orphans_ok c' -> grows c c'.
Proof.
  intros I S (O1 & O2). pose proof (quiet_same _ _ (hi_quiet _ I) S) as Q'. destruct S as (S1 & S2 & S3 & S4 & S5). split.
  - constructor; try assumption; unfold best, headers_db; rewrite ?S2, ?S3; apply I.
  - split; [exact S1|]. exists []. unfold headers_db. rewrite S3. reflexivity.
Qed.
Lemma accepted_grows c c' new moved : HI c -> accepted Blake2b env c c' new moved -> incl new HS -> orphans_ok c' -> grows c c'.
Proof.
  intros I [Q' C' D' St (p & len & f & f' & A1 & A2 & A3 & A4 & A5 & A6 & A7 & A8)] Inc (O1 & O2). split; [|split; [exact C'|eauto]]. constructor; try assumption.
  - destruct moved; [|rewrite (proj1 (St eq_refl)); apply I]. rewrite (proj1 (A8 eq_refl)). intros Z. apply app_eq_nil in Z as (_ & Z).
    apply A5. destruct new; [reflexivity|discriminate].
  - intros k h J. rewrite D' in J. apply in_app_or in J as [J|J]; [|apply (hi_keyed _ I _ _ J)]. apply entries_in in J as (x & E & _). injection E as -> ->. reflexivity.
  - intros k h J. rewrite D' in J. apply in_app_or in J as [J|J]; [|apply (hi_in _ I _ _ J)]. apply entries_in in J as (x & E & Jx). injection E as -> ->. apply Inc, Jx.
Qed.
Lemma small_W64 h : In h HS -> h_height h < W64.
Proof. intros J. apply Small in J. unfold small in J. change W64 with 18446744073709551616. lia. Qed.

Lemma single_grows fuel now h c r c' : HI c -> In h HS -> ProcessSingleHeader Blake2b BAD_BLOCKS env pow_keys fuel now h c = Some (r, c') -> grows c c'.
Proof.
  intros I J E. pose proof (single_orphans _ _ _ _ _ _ _ _ _ _ (hi_quiet _ I) (hi_keyed _ I) (hi_okeyed _ I) E) as O.
  assert (Oo : orphans_ok c').
  { split; intros k x Hx; (destruct (O _ Hx) as [Ex|Hx']; [injection Ex as -> ->|]); [reflexivity|apply (hi_okeyed _ I _ _ Hx')|exact J|apply (hi_oin _ I _ _ Hx')]. }
  destruct (single_cases _ _ _ _ _ _ _ _ _ _ (hi_quiet _ I) E) as [N S|prev D L B R|fu cc front rest c0 C _ B R].
  - apply same_grows; assumption.
  - subst r. apply (accepted_grows c c' [h] true); [exact I| |intros x [<-|[]]; exact J|exact Oo]. eapply extend_ok; eauto using hi_quiet, hi_best.
  - subst r. apply (collect_ok (fun h => In h HS)) in C; auto; try apply I.
    2:{ constructor. }
    destruct C as [_ C]. destruct (C _ eq_refl) as (F & _). rewrite Forall_forall in F.
    apply (accepted_grows c c' (front :: rest) (negb (h_totalDifficulty h <=? work c))); [exact I| |exact F|exact Oo].
    apply (accepted_orphans _ _ c c' _ _ cc). eapply (reorg_ok Blake2b env pow_keys now); [apply quiet_orphans, I| |exact B].
    apply small_W64, F. left. reflexivity.
Qed.
Lemma chunk_grows now hs c r c' : HI c -> incl hs HS -> ProcessChunkedSyncHeaders Blake2b env pow_keys now hs c = (r, c') -> grows c c'.
Proof.
  intros I J E. pose proof (chunk_orphans _ _ _ _ _ _ _ _ E) as O.
  assert (Oo : orphans_ok c') by (unfold orphans_ok; rewrite O; split; apply I).
  assert (Fs : Forall small hs) by (apply Forall_forall; intros x Jx; apply Small, J, Jx).
  destruct (chunk_changes Blake2b env pow_keys (mkHeader 0 0 0%Z [] [] [] [] [] [] 0 0 0 0 0 (mkPoW 0 [] [])) now hs c r c' (hi_quiet _ I) Fs E) as [N S|new R Nn (pre & ->) A].
  - apply same_grows; assumption.
  - refine (accepted_grows c c' new _ I A _ Oo). intros x Jx. apply J, in_or_app. right. exact Jx.
Qed.
Lemma chunks_grows now hs : forall room chunk c r c', HI c -> incl hs HS -> incl chunk HS ->
  chunks Blake2b env pow_keys now room chunk hs c = (r, c') -> grows c c'.
Proof.
  induction hs as [|h hs IH]; intros room chunk s r s' I Sh Sc E; cbn [chunks] in E.
  - destruct chunk as [|x chunk]; [injection E as <- <-; apply grows_refl, I|]. unfold bind at 1 in E.
    destruct (ProcessChunkedSyncHeaders Blake2b env pow_keys now (rev (x :: chunk)) s) as [r1 s1] eqn:E1.
    assert (P : grows s s1). { refine (chunk_grows now _ s r1 s1 I _ E1). intros y Jy. apply Sc. apply in_rev, Jy. }
    destruct r1; injection E as <- <-; exact P.
  - assert (Sh1 : incl hs HS) by (intros y Jy; apply Sh; right; exact Jy).
    assert (Sc1 : incl (h :: chunk) HS) by (intros y [<-|Jy]; [apply Sh; left; reflexivity|apply Sc, Jy]).
    assert (Full : (do status <- ProcessChunkedSyncHeaders Blake2b env pow_keys now (rev (h :: chunk));
       match status with SUCCESS | ALREADY_EXISTS => chunks Blake2b env pow_keys now SYNC_BATCH_SIZE [] hs | x => ret x end) s = (r, s') -> grows s s').
    { intros F. unfold bind at 1 in F.
      destruct (ProcessChunkedSyncHeaders Blake2b env pow_keys now (rev (h :: chunk)) s) as [r1 s1] eqn:E1.
      assert (P : grows s s1). { refine (chunk_grows now _ s r1 s1 I _ E1). intros y Jy. apply Sc1. apply in_rev, Jy. }
      assert (Nil : incl (@nil BlockHeader) HS) by (intros y []).
      destruct r1 as [[]| |]; try (injection F as <- <-; exact P);
        (eapply grows_trans; [exact P|]; eapply (IH SYNC_BATCH_SIZE []); [apply P|exact Sh1|exact Nil|exact F]). }
    destruct room as [|[|room]]; [exact (Full E)|exact (Full E)|]. exact (IH (S room) (h :: chunk) s r s' I Sh1 Sc1 E).
Qed.
Lemma sync_grows now hs c r c' : HI c -> incl hs HS -> ProcessSyncHeaders Blake2b BAD_BLOCKS env pow_keys now hs c = (r, c') -> grows c c'.
Proof.
  intros I J E. unfold ProcessSyncHeaders in E. destruct hs as [|front hs0]; [injection E as <- <-; apply grows_refl, I|].
  destruct (existsb _ _); [injection E as <- <-; apply grows_refl, I|]. destruct (h_height front =? 0); [injection E as <- <-; apply grows_refl, I|].
  destruct (negb _); [injection E as <- <-; apply grows_refl, I|].
  refine (chunks_grows now (front :: hs0) SYNC_BATCH_SIZE [] c r c' I J _ E). intros y [].
Qed.
Lemma create_grows g c c' : HI c -> In g HS -> Create Blake2b g c = (Ret tt, c') -> grows c c' /\
  (length (best c) = 1%nat -> exists more, headers_db c' = entry g :: more).
Proof.
  intros I J E. pose proof (hi_quiet _ I) as Q. unfold Create in E. unfold bind, get, put in E. rewrite (quiet_end_id c Q) in E.
  cbn [set_orphans s_candidate] in E. pose proof Q as (QA & QB & QC & QD & QE). rewrite QB in E.
  fold (best c) in E. destruct (_ =? 0) eqn:Z in E.
  - unfold AddBlockHeader, MMR_AddHeader, State_Commit, bind, get, put, lift, mmr_commit in E. cbn in E. rewrite QD in E.
    destruct (AddHashes Blake2b (committed (s_mmr c)) (header_leaf g)) as [f| |] eqn:A; try discriminate. cbn in E.
    injection E as <-. split; [|intros _; eexists; reflexivity]. split; [|split; [|exists [entry g]; unfold headers_db; cbn; rewrite QC; reflexivity]].
    + constructor; unfold quiet, best, headers_db, keyed; cbn.
      * repeat split.
      * rewrite QB. apply I.
      * rewrite QC. intros k h [Jk|Jk]; [injection Jk as <- <-; reflexivity|apply (hi_keyed _ I _ _ Jk)].
      * rewrite QC. intros k h [Jk|Jk]; [injection Jk as <- <-; exact J|apply (hi_in _ I _ _ Jk)].
      * intros k h [].
      * intros k h [].
    + destruct c as [[a b] ? ? ? ? ?]. cbn in *. unfold keep. cbn. rewrite QA. reflexivity.
  - unfold ret in E. injection E as <-. split; [|intros L; unfold best in *; rewrite L in Z; discriminate Z].
    split; [|split; [reflexivity|exists []; reflexivity]].
    constructor; unfold quiet, best, headers_db, keyed; cbn; try apply I; try (intros k h []).
Qed.
End Headers.
