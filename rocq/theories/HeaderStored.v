(** Every stored header was validated and is not on the bad block list (C17). *)
From Verif Require Import Base Bytes MMRIndexModel MMRHashModel CodecModel ConsensusModel CuckooModel DifficultyModel
  CacheModel CacheProofs HeaderModel HeaderSpec HeaderProofs.
Local Open Scope N_scope.

Section Stored.
Variable Blake2b : bytes -> bytes.
Variable BAD_BLOCKS : bytes -> bool.
Variable env : Environment.
Variable pow_keys : BlockHeader -> sip.
Variable genesis : BlockHeader.
Variable T : Z -> Prop.

Notation validated := (validated env pow_keys T).
Definition fine (h : BlockHeader) : Prop := BAD_BLOCKS (BlockHeader_GetHash h) = false.
Definition Gd (l : list (bytes * BlockHeader)) : Prop :=
  forall k h, In (k, h) l -> h = genesis \/ (fine h /\ validated l h).
Definition maybe (h : BlockHeader) : Prop := h = genesis \/ fine h.
Definition B (s : cstate) : Prop :=
  Gd (now_ (s_db s)) /\ Gd (committed (s_db s)) /\
  forall k h, In (k, h) (cache_items_map (s_orphans s)) -> maybe h.
Definition keeps {A} (m : M A) : Prop := forall s, B s -> B (snd (m s)).

Lemma validated_incl l l' h : incl l l' -> validated l h -> validated l' h.
Proof.
  intros I (now & prev & k & known & root & Hn & Hp & Hk & V). exists now, prev, k, known, root.
  split; [exact Hn|]. split; [apply I; exact Hp|]. split; [|exact V]. intros x y E. apply I, Hk, E.
Qed.
Lemma keeps_bind {A C} (m : M A) (k : A -> M C) : keeps m -> (forall x, keeps (k x)) -> keeps (bind m k).
Proof. intros Hm Hk s Bs. specialize (Hm s Bs). unfold bind. destruct (m s) as [[x| |] s']; cbn in *; auto. apply Hk, Hm. Qed.
Lemma keeps_get {A} (k : cstate -> M A) : (forall s, B s -> B (snd (k s s))) -> keeps (bind get k).
Proof. intros H s Bs. apply H, Bs. Qed.
Lemma keeps_ret {A} (x : A) : keeps (ret x). Proof. intros s Bs; exact Bs. Qed.
Lemma keeps_throw {A} : keeps (@throw A). Proof. intros s Bs; exact Bs. Qed.
Lemma keeps_fault {A} : keeps (@fault A). Proof. intros s Bs; exact Bs. Qed.
Lemma keeps_lift {A} (o : outcome A) : keeps (lift o). Proof. intros s Bs; exact Bs. Qed.
Lemma keeps_mmr_add h : keeps (MMR_AddHeader Blake2b h).
Proof. unfold MMR_AddHeader. apply keeps_get. intros s Bs. unfold bind, lift, put. destruct (AddHashes _ _ _); exact Bs. Qed.
Lemma keeps_mmr_rewind n : keeps (MMR_Rewind n).
Proof.
  unfold MMR_Rewind. apply keeps_get. intros s Bs. destruct (_ =? _); [exact Bs|]. unfold bind, lift, put. destruct (RewindHashes _ _); exact Bs.
Qed.
Lemma keeps_mmr_rollback : keeps MMR_Rollback.
Proof. unfold MMR_Rollback. apply keeps_get. intros s Bs. destruct (mmr_dirty s); exact Bs. Qed.
Lemma keeps_chain_add a b : keeps (Chain_AddBlock a b).
Proof. unfold Chain_AddBlock. apply keeps_get. intros s Bs. destruct (_ =? _); exact Bs. Qed.
Lemma keeps_chain_rewind a : keeps (Chain_Rewind a).
Proof. unfold Chain_Rewind. apply keeps_get. intros s Bs. destruct (_ <? _); exact Bs. Qed.
Lemma keeps_chain_rollback : keeps Chain_Rollback.
Proof. unfold Chain_Rollback. apply keeps_get. intros s Bs. exact Bs. Qed.
Lemma keeps_commit : keeps State_Commit.
Proof.
  unfold State_Commit. apply keeps_get. intros s (B1 & B2 & B3). cbn. unfold mmr_commit. cbn [mmr_dirty].
  destruct (mmr_dirty s); unfold B; cbn; auto.
Qed.
Lemma B_end s : B s -> B (end_writer s).
Proof. intros (B1 & B2 & B3). unfold B. cbn. auto. Qed.
Lemma keeps_batch {A} (m : M A) : keeps m -> keeps (batch m).
Proof. intros Hm s Bs. specialize (Hm s Bs). unfold batch. destruct (m s). apply B_end, Hm. Qed.

(** Storing a header that validation accepts on top of a stored header. *)
Lemma store_B s h prev k now root : B s -> maybe h -> T now -> In (k, prev) (now_ (s_db s)) ->
  ValidateHeader (GetBlockHeader s) env pow_keys root now h prev = Ret tt ->
  B (set_db s (set_now (s_db s) ((BlockHeader_GetHash h, h) :: now_ (s_db s)))).
Proof.
  intros (B1 & B2 & B3) Hf Hn Hp V. split; [|split; assumption]. cbn. intros x y [E|Hi].
  - injection E as <- <-. destruct Hf as [->|Hf]; [auto|]. right. split; [exact Hf|].
    exists now, prev, k, (GetBlockHeader s), root. split; [exact Hn|]. split; [right; exact Hp|]. split; [|exact V].
    intros a b E. right. apply db_find_in. exact E.
  - destruct (B1 _ _ Hi) as [->|[F G]]; [auto|]. right. split; [exact F|]. revert G. apply validated_incl. intros z Hz. right. exact Hz.
Qed.
Lemma same_db s s' : s_db s' = s_db s -> s_orphans s' = s_orphans s -> B s -> B s'.
Proof. intros E1 E2. unfold B. rewrite E1, E2. auto. Qed.
Lemma keeps_loop now : T now -> forall hs prev, Forall maybe hs ->
  forall s k, B s -> In (k, prev) (now_ (s_db s)) -> B (snd (validate_loop Blake2b env pow_keys now prev hs s)).
Proof.
  intros Hn. induction hs as [|h hs IH]; intros prev Hf s k Bs Hk; [exact Bs|]. inversion Hf; subst.
  cbn [validate_loop]. unfold bind at 1. unfold Validate_, bind, get, lift.
  destruct (ValidateHeader _ _ _ _ _ _ _) as [[]| |] eqn:V; [|exact Bs|exact Bs].
  unfold MMR_AddHeader, bind, get, lift, put. destruct (AddHashes _ _ _) as [f| |] eqn:F; [|exact Bs|exact Bs].
  set (s1 := set_mmr s _ true).
  assert (B1 : B s1) by exact Bs. assert (K1 : In (k, prev) (now_ (s_db s1))) by exact Hk.
  unfold AddBlockHeader, bind, get, put. set (s2 := set_db s1 _).
  assert (B2 : B s2) by (eapply store_B; [exact B1|assumption|exact Hn|exact K1|exact V]).
  pose proof (keeps_chain_add (BlockHeader_GetHash h) (h_height h) s2 B2) as B3.
  destruct (Chain_AddBlock (BlockHeader_GetHash h) (h_height h) s2) as [[[]| |] s3] eqn:E; cbn in B3; [|exact B3|exact B3].
  apply (IH h H2 s3 (BlockHeader_GetHash h) B3).
  unfold Chain_AddBlock, bind, get, put, throw in E. destruct (_ =? _) in E; [|discriminate]. injection E as <-. left. reflexivity.
Qed.
Lemma keeps_validate now hs : T now -> Forall maybe hs -> keeps (ValidateHeaders Blake2b env pow_keys now hs).
Proof.
  intros Hn Hf. unfold ValidateHeaders. destruct hs as [|front hs]; [apply keeps_fault|]. apply keeps_get. intros s Bs.
  destruct (GetBlockHeader s _) as [p|] eqn:E; [|exact Bs]. apply db_find_in in E. eapply keeps_loop; eauto.
Qed.

Lemma touch_items (c c' : cache bytes BlockHeader) k v : Get bytes_eqb LRU c k = Ret (v, c') ->
  cache_items_map c' = cache_items_map c /\ exists k', In (k', v) (cache_items_map c).
Proof.
  unfold Get. destruct (map_find _ _ _) as [x|] eqn:E; [|discriminate]. destruct (policy_touch _ _ _ _) as [q| |]; cbn [obind]; [|discriminate|discriminate].
  intros H. apply (f_equal (fun o => match o with Ret z => z | _ => (v, c') end)) in H. cbn in H. injection H as <- <-.
  split; [reflexivity|]. revert E. generalize (cache_items_map c). intros m. induction m as [|[a b] m IH]; cbn; [discriminate|].
  destruct (bytes_eqb a k); intros E.
  - injection E as ->. exists a. auto.
  - destruct (IH E) as [k' Hk']. exists k'. auto.
Qed.
Lemma erase_in (m : list (bytes * BlockHeader)) k x y : In (x, y) (map_erase bytes_eqb m k) -> In (x, y) m.
Proof. induction m as [|[a b] m IH]; cbn; [auto|]. destruct (bytes_eqb a k); [auto|]. intros [E|Hi]; [left; exact E|right; auto]. Qed.
Lemma put_items (c c' : cache bytes BlockHeader) k v x y : Put bytes_eqb LRU c k v = Ret c' ->
  In (x, y) (cache_items_map c') -> y = v \/ In (x, y) (cache_items_map c).
Proof.
  unfold Put. destruct (map_find _ (cache_items_map c) k) eqn:E.
  - unfold cache_update. destruct (policy_touch _ _ _ _); cbn [obind]; [|discriminate|discriminate].
    intros H. apply (f_equal (fun o => match o with Ret z => z | _ => c' end)) in H. cbn in H. subst c'. cbn. unfold map_set.
    intros [F|Hi]; [injection F as _ ->; auto|]. right. exact (erase_in _ _ _ _ Hi).
  - destruct (_ <? _).
    + destruct (policy_candidate _) as [d| |]; cbn [obind]; [|discriminate|discriminate]. unfold cache_erase.
      destruct (policy_erase _); cbn [obind]; [|discriminate|discriminate]. destruct (map_find _ _ d); cbn [obind]; [|discriminate].
      intros H. apply (f_equal (fun o => match o with Ret z => z | _ => c' end)) in H. cbn in H. subst c'. cbn. unfold map_emplace.
      destruct (map_find _ (map_erase _ _ _) k); cbn.
      * intros Hi. right. exact (erase_in _ _ _ _ Hi).
      * intros [F|Hi]; [injection F as _ ->; auto|]. right. exact (erase_in _ _ _ _ Hi).
    + cbn [obind]. intros H. apply (f_equal (fun o => match o with Ret z => z | _ => c' end)) in H. cbn in H. subst c'. cbn. unfold map_emplace.
      rewrite E. cbn. intros [F|Hi]; [injection F as _ ->; auto|auto].
Qed.
Lemma keeps_orphan h : maybe h -> keeps (AddOrphanHeader h).
Proof.
  intros Hf. unfold AddOrphanHeader. apply keeps_get. intros s Bs. unfold bind, lift, put.
  destruct (Put _ _ _ _ _) as [c| |] eqn:E; [|exact Bs|exact Bs]. destruct Bs as (B1 & B2 & B3). split; [exact B1|]. split; [exact B2|].
  cbn. intros k x Hi. destruct (put_items _ _ _ _ _ _ E Hi) as [->|Hj]; [exact Hf|eauto].
Qed.
Lemma collect_maybe l db : (forall k h, In (k, h) db -> maybe h) ->
  forall fuel c temp acc r c', (forall k h, In (k, h) (cache_items_map c) -> maybe h) -> maybe temp -> Forall maybe acc ->
  collect fuel l db c temp acc = Some (Ret (r, c')) ->
  (forall k h, In (k, h) (cache_items_map c') -> maybe h) /\ (forall hs, r = Some hs -> Forall maybe hs).
Proof.
  intros Hdb. induction fuel as [|fuel IH]; intros c temp acc r c' Hc Ht Ha E; [discriminate|]. cbn [collect] in E. cbv zeta in E.
  destruct (on_chain _ _ _).
  { injection E as <- <-. split; [exact Hc|]. intros hs F. injection F as <-. exact Ha. }
  unfold GetOrphanHeader in E. destruct (Cached bytes_eqb c (h_previousBlockHash temp)).
  - destruct (Get bytes_eqb LRU c (h_previousBlockHash temp)) as [[v c1]| |] eqn:G; cbn [obind fst snd] in E; [|discriminate|discriminate].
    destruct (touch_items _ _ _ _ G) as [I [k' Hk]]. eapply IH; [| | |exact E].
    + rewrite I. exact Hc.
    + eapply Hc; eauto.
    + constructor; assumption.
  - destruct (db_find db (h_previousBlockHash temp)) as [t|] eqn:D.
    + eapply IH; [exact Hc| | |exact E]; [|constructor; assumption]. apply db_find_in in D. eapply Hdb; eauto.
    + injection E as <- <-. split; [exact Hc|]. discriminate.
Qed.
Lemma Gd_maybe l : Gd l -> forall k h, In (k, h) l -> maybe h.
Proof. intros G k h Hi. destruct (G _ _ Hi) as [->|[F _]]; [left; reflexivity|right; exact F]. Qed.

Lemma keeps_reorg now front rest x y (m : M EBlockChainStatus) : T now -> Forall maybe (front :: rest) -> keeps m ->
  keeps (do _ <- Chain_Rewind x; do _ <- MMR_Rewind y; do _ <- ValidateHeaders Blake2b env pow_keys now (front :: rest); m).
Proof.
  intros Hn Hf Hm. apply keeps_bind; [apply keeps_chain_rewind|intros _]. apply keeps_bind; [apply keeps_mmr_rewind|intros _].
  apply keeps_bind; [apply keeps_validate; assumption|intros _; exact Hm].
Qed.
Lemma keeps_tail (b : bool) : keeps (do _ <- (if b then do _ <- MMR_Rollback; Chain_Rollback else ret tt); do _ <- State_Commit; ret SUCCESS).
Proof.
  apply keeps_bind; [|intros _; apply keeps_bind; [apply keeps_commit|intros _; apply keeps_ret]].
  destruct b; [|apply keeps_ret]. apply keeps_bind; [apply keeps_mmr_rollback|intros _; apply keeps_chain_rollback].
Qed.
Lemma keeps_finish now td h r : T now -> maybe h -> (forall hs, r = Some hs -> Forall maybe hs) ->
  keeps (finish_orphan Blake2b env pow_keys now td h r).
Proof.
  intros Hn Hh Hr. destruct r as [[|front rest]|]; cbn [finish_orphan].
  - apply keeps_fault.
  - apply keeps_reorg; [exact Hn|auto|apply keeps_tail].
  - apply keeps_bind; [apply keeps_orphan; exact Hh|intros _; apply keeps_ret].
Qed.

Lemma single_B fuel now h s r s' : T now -> B s ->
  ProcessSingleHeader Blake2b BAD_BLOCKS env pow_keys fuel now h s = Some (r, s') -> B s'.
Proof.
  intros Hn Bs E. unfold ProcessSingleHeader in E. cbv zeta in E.
  destruct (BAD_BLOCKS (BlockHeader_GetHash h)) eqn:Bad; [injection E as <- <-; exact Bs|].
  assert (Hh : maybe h) by (right; exact Bad).
  destruct (GetBlockHeader s (BlockHeader_GetHash h)) as [x|]; [injection E as <- <-; apply B_end, Bs|].
  destruct (negb _).
  - destruct (collect fuel _ _ _ h []) as [[[reorg c]| |]|] eqn:C.
    + apply some_inj in E. pose proof Bs as (B1 & B2 & B3).
      destruct (collect_maybe _ _ (Gd_maybe _ B1) _ _ _ _ _ _ B3 Hh (Forall_nil _) C) as [C1 C2].
      assert (K : keeps (batch (finish_orphan Blake2b env pow_keys now (GetTotalDifficulty s) h reorg))).
      { apply keeps_batch, keeps_finish; assumption. }
      specialize (K (set_orphans s c)). rewrite E in K. apply K. split; [exact B1|]. split; [exact B2|exact C1].
    + injection E as <- <-. apply B_end, Bs.
    + injection E as <- <-. apply B_end, Bs.
    + discriminate.
  - apply some_inj in E. destruct (GetBlockHeader s (tip_hash _)) as [prev|] eqn:D.
    2:{ cbn in E. injection E as <- <-. apply B_end, Bs. }
    apply db_find_in in D. unfold batch in E.
    match type of E with (let '(_, _) := ?m s in _) = _ => assert (K : B (snd (m s))) end.
    { unfold bind at 1. unfold Validate_, bind at 1, get, lift. destruct (ValidateHeader _ _ _ _ _ _ _) as [[]| |] eqn:V; [|exact Bs|exact Bs].
      unfold AddBlockHeader. unfold bind at 1. unfold bind at 1, get, put. set (s1 := set_db s _).
      assert (B1 : B s1) by (eapply store_B; [exact Bs|exact Hh|exact Hn|exact D|exact V]).
      refine (keeps_bind _ _ (keeps_mmr_add h) _ s1 B1). intros _. apply keeps_bind; [apply keeps_chain_add|intros _].
      apply keeps_bind; [apply keeps_commit|intros _; apply keeps_ret]. }
    match type of E with (let '(_, _) := ?m in _) = _ => destruct m as [r1 s1] end. injection E as <- <-. apply B_end, K.
Qed.

Lemma skip_maybe l hs : Forall maybe hs -> Forall maybe (skip_known l hs).
Proof. induction hs as [|h hs IH]; intros H; [constructor|]. cbn [skip_known]. inversion H; subst. destruct (on_chain _ _ _); auto. Qed.
Lemma keeps_chunked now hs : T now -> Forall maybe hs -> keeps (ProcessChunkedSyncHeaders Blake2b env pow_keys now hs).
Proof.
  intros Hn Hf. unfold ProcessChunkedSyncHeaders. apply keeps_batch, keeps_get. intros s Bs. destruct hs as [|first hs0]; [exact Bs|].
  cbv zeta. destruct (negb _); [exact Bs|]. pose proof (skip_maybe (now_ (s_candidate s)) _ Hf) as Hs.
  destruct (skip_known _ _) as [|front rest]; [exact Bs|]. apply keeps_reorg; [exact Hn|exact Hs|apply keeps_tail|exact Bs].
Qed.
Lemma keeps_chunks now : T now -> forall hs room chunk, Forall maybe hs -> Forall maybe chunk -> keeps (chunks Blake2b env pow_keys now room chunk hs).
Proof.
  intros Hn. induction hs as [|h hs IH]; intros room chunk Hh Hc.
  - cbn [chunks]. destruct chunk as [|x chunk]; [apply keeps_ret|]. apply keeps_bind; [|intros; apply keeps_ret].
    apply keeps_chunked; [exact Hn|]. apply Forall_rev. exact Hc.
  - inversion Hh; subst.
    assert (K : keeps (do status <- ProcessChunkedSyncHeaders Blake2b env pow_keys now (rev (h :: chunk));
      match status with SUCCESS | ALREADY_EXISTS => chunks Blake2b env pow_keys now SYNC_BATCH_SIZE [] hs | x => ret x end)).
    { apply keeps_bind; [apply keeps_chunked; [exact Hn|apply Forall_rev; constructor; assumption]|].
      intros []; try apply keeps_ret; apply IH; auto. }
    cbn [chunks]. destruct room as [|[|room]]; [exact K|exact K|]. apply IH; [assumption|constructor; assumption].
Qed.
Lemma sync_B now hs s : T now -> B s -> B (snd (ProcessSyncHeaders Blake2b BAD_BLOCKS env pow_keys now hs s)).
Proof.
  intros Hn Bs. unfold ProcessSyncHeaders. destruct hs as [|front hs0]; [exact Bs|]. set (hs := front :: hs0).
  destruct (existsb _ hs) eqn:X; [exact Bs|]. destruct (_ =? 0); [exact Bs|]. destruct (negb _); [exact Bs|].
  apply keeps_chunks; [exact Hn| |constructor|exact Bs]. apply Forall_forall. intros x Hx. right. unfold fine.
  destruct (BAD_BLOCKS _) eqn:Q; [|reflexivity]. assert (existsb (fun h => BAD_BLOCKS (BlockHeader_GetHash h)) hs = true); [|congruence].
  apply existsb_exists. exists x. auto.
Qed.
Lemma B_put_genesis s : B s -> B (snd ((do _ <- AddBlockHeader genesis; do _ <- MMR_AddHeader Blake2b genesis; State_Commit) s)).
Proof.
  intros Bs. unfold AddBlockHeader. unfold bind at 1. unfold bind at 1, get, put. set (s1 := set_db s _).
  refine (keeps_bind _ _ (keeps_mmr_add genesis) (fun _ => keeps_commit) s1 _).
  destruct Bs as (B1 & B2 & B3). split; [|split; assumption]. cbn. intros k h [E|Hi].
  - injection E as <- <-. auto.
  - destruct (B1 _ _ Hi) as [->|[F G]]; [auto|]. right. split; [exact F|]. revert G. apply validated_incl. intros z Hz. right. exact Hz.
Qed.
Lemma create_B s : B s -> B (snd (Create Blake2b genesis s)).
Proof.
  intros (B1 & B2 & B3). unfold Create. unfold bind at 1, get at 1. unfold bind at 1, put at 1. unfold bind at 1, get at 1.
  assert (K : B (set_orphans (end_writer s) (cache_new 64))) by (split; [exact B2|split; [exact B2|intros k h []]]).
  destruct (_ =? 0); [apply B_put_genesis; exact K|exact K].
Qed.
Lemma started_B : B (started Blake2b genesis).
Proof. apply create_B. split; [intros k h []|split; [intros k h []|intros k h []]]. Qed.
End Stored.

Lemma run_B Blake2b BAD_BLOCKS env pow_keys genesis (T : Z -> Prop) fuel : forall es s rs s',
  (forall e t, In e es -> In t (clock e) -> T t) -> B BAD_BLOCKS env pow_keys genesis T s ->
  handle_all Blake2b BAD_BLOCKS env pow_keys fuel genesis es s = Some (rs, s') -> B BAD_BLOCKS env pow_keys genesis T s'.
Proof.
  induction es as [|e es IH]; intros s rs s' Ht Bs E; cbn [handle_all] in E; [injection E as _ <-; exact Bs|].
  assert (K : forall r s1, handle Blake2b BAD_BLOCKS env pow_keys fuel genesis e s = Some (r, s1) -> B BAD_BLOCKS env pow_keys genesis T s1).
  { intros r s1 Hh. destruct e as [now h|now hs|]; cbn [handle] in Hh.
    - eapply single_B; [|exact Bs|exact Hh]. apply (Ht (Header now h)); left; reflexivity.
    - apply some_inj in Hh. pose proof (sync_B Blake2b BAD_BLOCKS env pow_keys genesis T now hs s (Ht (Headers now hs) _ (or_introl eq_refl) (or_introl eq_refl)) Bs) as K.
      rewrite Hh in K. exact K.
    - pose proof (create_B Blake2b BAD_BLOCKS env pow_keys genesis T s Bs) as K. destruct (Create Blake2b genesis s) as [[u| |] s2]; try discriminate.
      injection Hh as _ <-. exact K. }
  destruct (handle _ _ _ _ _ _ e s) as [[r s1]|] eqn:Hh; [|discriminate]. specialize (K _ _ eq_refl).
  destruct r as [x| |]; [| |discriminate];
    (destruct (handle_all _ _ _ _ _ _ es s1) as [[rs2 s2]|] eqn:E2; [|discriminate]; injection E as _ <-;
     eapply IH; [|exact K|exact E2]; intros e' t Hi; apply Ht; right; exact Hi).
Qed.
