From Verif Require Import Base Bytes MMRIndexModel MMRHashModel MMRHashSpec MMRHashProofs CodecModel ConsensusModel CuckooModel
  DifficultyModel CacheModel CacheSpec HeaderModel HeaderSpec.
From Verif Require CacheProofs.
Local Open Scope N_scope.

Lemma some_inj {A} (x y : A) : Some x = Some y -> x = y.
Proof. congruence. Qed.
Lemma ret_inj {A} (x y : A) : Ret x = Ret y -> x = y.
Proof. congruence. Qed.
(** ** The state monad *)
Lemma bind_inv {A B} (m : M A) (k : A -> M B) s x s' : bind m k s = (Ret x, s') ->
  exists a s1, m s = (Ret a, s1) /\ k a s1 = (Ret x, s').
Proof. unfold bind. destruct (m s) as [[a| |] s1]; intros H; try discriminate. eauto. Qed.

Definition same_com (s s' : cstate) : Prop :=
  committed (s_confirmed s') = committed (s_confirmed s) /\ committed (s_candidate s') = committed (s_candidate s) /\
  committed (s_db s') = committed (s_db s) /\ committed (s_mmr s') = committed (s_mmr s).
Lemma same_com_refl s : same_com s s.
Proof. unfold same_com. auto. Qed.
Lemma same_com_trans a b c : same_com a b -> same_com b c -> same_com a c.
Proof. unfold same_com. intros (A & B & C & D) (E & F & G & H). repeat split; congruence. Qed.
Definition frames {A} (m : M A) : Prop := forall s, same_com s (snd (m s)).
Lemma frames_bind {A B} (m : M A) (k : A -> M B) : frames m -> (forall a, frames (k a)) -> frames (bind m k).
Proof.
  intros H1 H2 s. unfold bind. specialize (H1 s). destruct (m s) as [[a| |] s1]; cbn in *; auto.
  eapply same_com_trans; [exact H1|apply H2].
Qed.
Lemma frames_ret {A} (x : A) : frames (ret x).
Proof. intros s. apply same_com_refl. Qed.
Lemma frames_lift {A} (o : outcome A) : frames (lift o).
Proof. intros s. apply same_com_refl. Qed.
Lemma frames_throw {A} : frames (@throw A).
Proof. intros s. apply same_com_refl. Qed.
Lemma frames_fault {A} : frames (@fault A).
Proof. intros s. apply same_com_refl. Qed.
(** Reads the state, then runs something that depends on it. *)
Lemma frames_get {B} (k : cstate -> M B) : (forall s, same_com s (snd (k s s))) -> frames (bind get k).
Proof. intros H s. unfold bind, get. apply H. Qed.

Lemma validate_ok db e keys root now h p : ValidateHeader db e keys root now h p = Ret tt ->
  h_height h = add64 (h_height p) 1 /\ (e <> AUTOMATED_TESTING -> h_totalDifficulty p < h_totalDifficulty h) /\
  root (sub64 (h_height h) 1) = Ret (h_previousRoot h).
Proof.
  intros H. unfold ValidateHeader in H.
  destruct (h_height h =? add64 (h_height p) 1) eqn:E1; cbn [negb] in H; [|discriminate]. apply N.eqb_eq in E1.
  destruct (GetMaxBlockTime now) as [mx| |]; cbn [obind] in H; try discriminate.
  destruct (mx <? h_timestamp h)%Z; [discriminate|]. cbv zeta in H.
  destruct (h_version h =? _); cbn [negb] in H; [|discriminate].
  destruct (h_timestamp h <=? h_timestamp p)%Z; [discriminate|].
  destruct (IsPoWValid db e keys h p) as [b| |] eqn:EP; cbn [obind] in H; try discriminate.
  destruct b; cbn [negb] in H; [|discriminate].
  destruct (root (sub64 (h_height h) 1)) as [rt| |] eqn:ER; cbn [obind] in H; try discriminate.
  destruct (bytes_eqb rt (h_previousRoot h)) eqn:EB; cbn [negb] in H; [|discriminate].
  apply bytes_eqb_spec in EB. subst rt. split; [exact E1|]. split; [|reflexivity].
  intros Henv. replace (IsPoWValid db e keys h p) with (PoW_IsPoWValid db e keys h p) in EP
    by (destruct e; [reflexivity|reflexivity|contradiction]).
  unfold PoW_IsPoWValid in EP. destruct (h_totalDifficulty h <=? h_totalDifficulty p) eqn:E4; [discriminate|]. lia.
Qed.

Lemma erase_sub (m : list (bytes * BlockHeader)) k x : In x (map_erase bytes_eqb m k) -> In x m.
Proof. induction m as [|[a v] m IH]; cbn; [tauto|]. destruct (bytes_eqb a k); cbn; [auto|]. intros [H|H]; auto. Qed.
Lemma put_items (c : cache bytes BlockHeader) k v c' x : Put bytes_eqb LRU c k v = Ret c' -> In x (cache_items_map c') -> x = (k, v) \/ In x (cache_items_map c).
Proof.
  unfold Put. intros H Hx. destruct (map_find bytes_eqb (cache_items_map c) k) as [o|].
  - unfold cache_update in H. destruct (policy_touch _ _ _ _); cbn [obind] in H; try discriminate. injection H as <-.
    cbn in Hx. destruct Hx as [<-|Hx]; [auto|]. right. apply erase_sub in Hx. exact Hx.
  - destruct (max_cache_size c <? _).
    + destruct (policy_candidate (queue c)) as [k2| |]; cbn [obind] in H; try discriminate.
      unfold cache_erase in H. destruct (policy_erase (queue c)); cbn [obind] in H; try discriminate.
      destruct (map_find bytes_eqb (cache_items_map c) k2); cbn [obind] in H; try discriminate. injection H as <-.
      unfold cache_insert in Hx. cbn in Hx. unfold map_emplace in Hx. cbn in Hx. 
      destruct (map_find bytes_eqb _ k) in Hx; cbn in Hx; [right; eapply erase_sub; exact Hx|].
      destruct Hx as [<-|Hx]; [auto|]. right. eapply erase_sub; exact Hx.
    + injection H as <-. unfold cache_insert in Hx. cbn in Hx. unfold map_emplace in Hx.
      destruct (map_find bytes_eqb _ k) in Hx; cbn in Hx; [auto|]. destruct Hx as [<-|Hx]; auto.
Qed.
Lemma find_in (m : list (bytes * BlockHeader)) k v : map_find bytes_eqb m k = Some v -> In (k, v) m.
Proof.
  induction m as [|[a w] m IH]; cbn; [discriminate|]. destruct (bytes_eqb a k) eqn:E; [|auto].
  apply bytes_eqb_spec in E. subst. intros H. injection H as <-. auto.
Qed.
Lemma db_find_in (m : list (bytes * BlockHeader)) k v : db_find m k = Some v -> In (k, v) m.
Proof.
  induction m as [|[a w] m IH]; cbn; [discriminate|]. destruct (bytes_eqb a k) eqn:E; [|auto].
  apply bytes_eqb_spec in E. subst. intros H. injection H as <-. auto.
Qed.
Lemma in_db_find (m : list (bytes * BlockHeader)) k v : In (k, v) m -> exists w, db_find m k = Some w.
Proof.
  induction m as [|[a w] m IH]; cbn; [tauto|]. intros [E|H].
  - injection E as -> ->. rewrite (proj2 (bytes_eqb_spec k k) eq_refl). eauto.
  - destruct (bytes_eqb a k); eauto.
Qed.
Lemma orphan_get c k o c' : GetOrphanHeader c k = Ret (o, c') ->
  (forall x, In x (cache_items_map c') -> In x (cache_items_map c)) /\ (forall v, o = Some v -> In (k, v) (cache_items_map c)).
Proof.
  unfold GetOrphanHeader, Cached. intros H. destruct (map_find bytes_eqb (cache_items_map c) k) as [v|] eqn:F.
  - unfold Get in H. rewrite F in H. destruct (policy_touch _ _ _ _); cbn in H; try discriminate. injection H as <- <-.
    cbn. split; [auto|]. intros w E. injection E as <-. apply find_in, F.
  - injection H as <- <-. split; [auto|discriminate].
Qed.

Fixpoint path (t : BlockHeader) (l : list BlockHeader) : Prop :=
  match l with [] => True | x :: l' => h_previousBlockHash x = BlockHeader_GetHash t /\ path x l' end.
Definition keyed (l : list (bytes * BlockHeader)) : Prop := forall k h, In (k, h) l -> k = BlockHeader_GetHash h.
Lemma collect_ok (P : BlockHeader -> Prop) fuel l db : forall c temp acc out c',
  keyed db -> keyed (cache_items_map c) ->
  (forall k h, In (k, h) db -> P h) -> (forall k h, In (k, h) (cache_items_map c) -> P h) -> P temp -> Forall P acc ->
  path temp acc ->
  collect fuel l db c temp acc = Some (Ret (out, c')) ->
  (forall x, In x (cache_items_map c') -> In x (cache_items_map c)) /\
  (forall hs, out = Some hs -> Forall P hs /\
    exists t mid, on_chain l (h_height t) (BlockHeader_GetHash t) = true /\ path t hs /\
      ((mid = [] /\ t = temp /\ hs = acc) \/ hs = mid ++ temp :: acc)).
Proof.
  induction fuel as [|n IH]; intros c temp acc out c' Kd Kc Pd Pc Pt Pa Pth E; [discriminate|]. cbn [collect] in E.
  destruct (on_chain l (h_height temp) (BlockHeader_GetHash temp)) eqn:O.
  { apply some_inj in E. apply ret_inj in E. injection E as <- <-. split; [auto|]. intros hs Eh. injection Eh as <-. split; [exact Pa|].
    exists temp, []. split; [exact O|split; [exact Pth|left; auto]]. }
  cbv zeta in E.
  assert (Next : forall t c1, (forall x, In x (cache_items_map c1) -> In x (cache_items_map c)) ->
     BlockHeader_GetHash t = h_previousBlockHash temp -> P t -> collect n l db c1 t (temp :: acc) = Some (Ret (out, c')) ->
     (forall x, In x (cache_items_map c') -> In x (cache_items_map c)) /\
     (forall hs, out = Some hs -> Forall P hs /\
     exists t mid, on_chain l (h_height t) (BlockHeader_GetHash t) = true /\ path t hs /\
      ((mid = [] /\ t = temp /\ hs = acc) \/ hs = mid ++ temp :: acc))).
  { intros t c1 Sub Ht Pt' E'. destruct (IH c1 t (temp :: acc) out c') as [A B]; auto.
    - intros k h Hi. apply Kc, Sub, Hi.
    - intros k h Hi. apply (Pc k), Sub, Hi.
    - cbn. auto.
    - split; [auto|]. intros hs Eh. destruct (B hs Eh) as (F & u & mid & G1 & G2 & G3). split; [exact F|].
      destruct G3 as [(A1 & A2 & A3)|A3]; subst.
      + exists t, []. split; [exact G1|split; [exact G2|right; reflexivity]].
      + exists u, (mid ++ [t]). split; [exact G1|]. split; [exact G2|]. right. rewrite <- app_assoc. reflexivity. }
  destruct (GetOrphanHeader c (h_previousBlockHash temp)) as [[[t|] c1]| |] eqn:G; try discriminate.
  - apply orphan_get in G. destruct G as [G1 G2]. specialize (G2 t eq_refl). apply (Next t c1); auto.
    + symmetry. apply Kc, G2.
    + apply (Pc _ _ G2).
  - apply orphan_get in G. destruct G as [G1 _]. destruct (db_find db (h_previousBlockHash temp)) as [t|] eqn:D.
    + apply db_find_in in D. apply (Next t c1); auto.
      * symmetry. apply Kd, D.
      * apply (Pd _ _ D).
    + apply some_inj in E. apply ret_inj in E. injection E as <- <-. split; [exact G1|]. discriminate.
Qed.
Section Proofs.
Variable Blake2b : bytes -> bytes.
Variable BAD_BLOCKS : bytes -> bool.
Variable env : Environment.
Variable pow_keys : BlockHeader -> sip.

Lemma frames_add_header h : frames (AddBlockHeader h).
Proof. intros s. cbn. repeat split. Qed.
Lemma frames_chain_add k h : frames (Chain_AddBlock k h).
Proof. intros s. unfold Chain_AddBlock, bind, get. destruct (_ =? _); cbn; repeat split. Qed.
Lemma frames_chain_rewind h : frames (Chain_Rewind h).
Proof. intros s. unfold Chain_Rewind, bind, get. destruct (_ <? _); cbn; repeat split. Qed.
Lemma frames_chain_rollback : frames Chain_Rollback.
Proof. intros s. cbn. repeat split. Qed.
Lemma frames_mmr_add h : frames (MMR_AddHeader Blake2b h).
Proof. intros s. unfold MMR_AddHeader, bind, get, lift. destruct (AddHashes _ _ _); cbn; repeat split. Qed.
Lemma frames_mmr_rewind n : frames (MMR_Rewind n).
Proof. intros s. unfold MMR_Rewind, bind, get, lift. destruct (_ =? _); [cbn; repeat split|]. destruct (RewindHashes _ _); cbn; repeat split. Qed.
Lemma frames_mmr_rollback : frames MMR_Rollback.
Proof. intros s. unfold MMR_Rollback, bind, get. destruct (mmr_dirty s); cbn; repeat split. Qed.
Lemma frames_validate now h p : frames (Validate_ Blake2b env pow_keys now h p).
Proof. intros s. cbn. repeat split. Qed.
Lemma frames_orphan h : frames (AddOrphanHeader h).
Proof. intros s. unfold AddOrphanHeader, bind, get, lift. destruct (Put _ _ _ _ _); cbn; repeat split. Qed.
Lemma frames_loop now hs : forall p, frames (validate_loop Blake2b env pow_keys now p hs).
Proof.
  induction hs as [|h hs IH]; intros p; cbn [validate_loop]; [apply frames_ret|].
  apply frames_bind; [apply frames_validate|intros _]. apply frames_bind; [apply frames_mmr_add|intros _].
  apply frames_bind; [apply frames_add_header|intros _]. apply frames_bind; [apply frames_chain_add|intros _]. apply IH.
Qed.
Lemma frames_validate_headers now hs : frames (ValidateHeaders Blake2b env pow_keys now hs).
Proof.
  unfold ValidateHeaders. destruct hs as [|h hs]; [apply frames_fault|]. apply frames_get. intros s.
  destruct (GetBlockHeader s _); [apply frames_loop|apply same_com_refl].
Qed.

(** ** The end of a batch *)
Lemma end_same_stores s s' : quiet s -> same_com s s' -> same_stores s (end_writer s').
Proof.
  intros (A & B & C & D & E) (F & G & H & I). unfold same_stores, end_writer, drop. cbn.
  destruct s as [[? ?] [? ?] [? ?] [? ?] dd oo]. destruct s' as [[? ?] [? ?] [? ?] [? ?] dd' oo']. cbn in *. subst. repeat split.
Qed.
Lemma quiet_end s : quiet (end_writer s).
Proof. unfold quiet, end_writer, drop. cbn. auto. Qed.
Lemma quiet_batch {A} (m : M A) s r s' : batch m s = (r, s') -> quiet s'.
Proof. unfold batch. destruct (m s) as [a b]. intros B. injection B as <- <-. apply quiet_end. Qed.
Lemma same_stores_refl s : same_stores s s.
Proof. unfold same_stores. auto. Qed.
Lemma quiet_end_id s : quiet s -> end_writer s = s.
Proof. destruct s as [[? ?] [? ?] [? ?] [? ?] d o]. unfold quiet, end_writer, drop. cbn. intros (-> & -> & -> & -> & ->). reflexivity. Qed.

(** A batch whose last action is the commit: if it does not succeed the stores are unchanged. *)
Lemma commit_last {A} (m : M A) s r s' : quiet s -> frames m ->
  batch (do _ <- m; do _ <- State_Commit; ret SUCCESS) s = (r, s') -> r <> Ret SUCCESS -> same_stores s s'.
Proof.
  intros Q F E N. unfold batch, bind in E. specialize (F s). destruct (m s) as [[a| |] s1]; cbn in E, F.
  - injection E as <- <-. contradiction.
  - injection E as <- <-. apply end_same_stores; assumption.
  - injection E as <- <-. apply end_same_stores; assumption.
Qed.

(** The part of a reorganisation before the commit. *)
Definition reorg (now : Z) (total : N) (lastTD : N) (front : BlockHeader) (rest : list BlockHeader) : M unit :=
  do _ <- Chain_Rewind (sub64 (h_height front) 1);
  do _ <- MMR_Rewind (h_height front);
  do _ <- ValidateHeaders Blake2b env pow_keys now (front :: rest);
  (if lastTD <=? total then do _ <- MMR_Rollback; Chain_Rollback else ret tt).
Lemma bind_assoc {A B C} (m : M A) (k : A -> M B) (k' : B -> M C) s : bind (bind m k) k' s = bind m (fun a => bind (k a) k') s.
Proof. unfold bind. destruct (m s) as [[a| |] s1]; reflexivity. Qed.
Lemma bind_ext {A B} (m : M A) (k k' : A -> M B) s : (forall a s, k a s = k' a s) -> bind m k s = bind m k' s.
Proof. intros H. unfold bind. destruct (m s) as [[a| |] s1]; auto. Qed.
Lemma finish_eq now total h front rest s :
  finish_orphan Blake2b env pow_keys now total h (Some (front :: rest)) s =
  (do _ <- reorg now total (h_totalDifficulty h) front rest; do _ <- State_Commit; ret SUCCESS) s.
Proof.
  unfold finish_orphan, reorg. rewrite !bind_assoc. apply bind_ext. intros _ s1. rewrite !bind_assoc. apply bind_ext. intros _ s2.
  rewrite !bind_assoc. reflexivity.
Qed.
Lemma frames_reorg now total td front rest : frames (reorg now total td front rest).
Proof.
  unfold reorg. apply frames_bind; [apply frames_chain_rewind|intros _]. apply frames_bind; [apply frames_mmr_rewind|intros _].
  apply frames_bind; [apply frames_validate_headers|intros _].
  destruct (td <=? total); [|apply frames_ret]. apply frames_bind; [apply frames_mmr_rollback|intros _]. apply frames_chain_rollback.
Qed.
Definition extend (now : Z) (h prev : BlockHeader) : M unit :=
  do _ <- Validate_ Blake2b env pow_keys now h prev;
  do _ <- AddBlockHeader h;
  do _ <- MMR_AddHeader Blake2b h;
  Chain_AddBlock (BlockHeader_GetHash h) (h_height h).
Lemma frames_extend now h p : frames (extend now h p).
Proof.
  unfold extend. apply frames_bind; [apply frames_validate|intros _]. apply frames_bind; [apply frames_add_header|intros _].
  apply frames_bind; [apply frames_mmr_add|intros _]. apply frames_chain_add.
Qed.
Lemma extend_eq now h prev s :
  (do _ <- Validate_ Blake2b env pow_keys now h prev; do _ <- AddBlockHeader h; do _ <- MMR_AddHeader Blake2b h;
   do _ <- Chain_AddBlock (BlockHeader_GetHash h) (h_height h); do _ <- State_Commit; ret SUCCESS) s =
  (do _ <- extend now h prev; do _ <- State_Commit; ret SUCCESS) s.
Proof.
  unfold extend. rewrite !bind_assoc. apply bind_ext. intros _ s1. rewrite !bind_assoc. apply bind_ext. intros _ s2.
  rewrite !bind_assoc. reflexivity.
Qed.

(** The outcomes of processing a single header. *)
Inductive single_case (now : Z) (h : BlockHeader) (s : cstate) (r : outcome EBlockChainStatus) (s' : cstate) : Prop :=
| single_nothing : r <> Ret SUCCESS -> same_stores s s' -> single_case now h s r s'
| single_extend prev : stored s (tip_hash (best s)) = Some prev -> h_previousBlockHash h = tip_hash (best s) ->
    batch (do _ <- extend now h prev; do _ <- State_Commit; ret SUCCESS) s = (r, s') -> r = Ret SUCCESS -> single_case now h s r s'
| single_reorg fuel c front rest c0 : collect fuel (best s) (headers_db s) (s_orphans s) h [] = Some (Ret (Some (front :: rest), c)) ->
    c0 = c -> batch (do _ <- reorg now (work s) (h_totalDifficulty h) front rest; do _ <- State_Commit; ret SUCCESS) (set_orphans s c) = (r, s') ->
    r = Ret SUCCESS -> single_case now h s r s'.

Lemma status_dec (r : outcome EBlockChainStatus) : {r = Ret SUCCESS} + {r <> Ret SUCCESS}.
Proof. destruct r as [[]| |]; (left; reflexivity) || (right; discriminate). Qed.
Lemma batch_frames {A} (m : M A) s r s' : quiet s -> frames m -> batch m s = (r, s') -> same_stores s s'.
Proof.
  intros Q F E. unfold batch in E. specialize (F s). destruct (m s) as [r1 s1]. injection E as <- <-. apply end_same_stores; assumption.
Qed.
Lemma quiet_orphans s c : quiet s -> quiet (set_orphans s c).
Proof. destruct s. auto. Qed.
Lemma single_cases fuel now h s r s' : quiet s ->
  ProcessSingleHeader Blake2b BAD_BLOCKS env pow_keys fuel now h s = Some (r, s') -> single_case now h s r s'.
Proof.
  intros Q E. unfold ProcessSingleHeader in E. cbv zeta in E.
  destruct (BAD_BLOCKS (BlockHeader_GetHash h)).
  { injection E as <- <-. apply single_nothing; [discriminate|apply same_stores_refl]. }
  destruct (GetBlockHeader s (BlockHeader_GetHash h)) as [x|].
  { injection E as <- <-. apply single_nothing; [discriminate|]. rewrite quiet_end_id by exact Q. apply same_stores_refl. }
  pose proof Q as (QA & QB & QC & QD & QE). rewrite QB in E.
  destruct (bytes_eqb (tip_hash (committed (s_candidate s))) (h_previousBlockHash h)) eqn:T; cbn [negb] in E.
  - apply bytes_eqb_spec in T. unfold GetBlockHeader in E. rewrite QC in E.
    destruct (db_find (committed (s_db s)) (tip_hash (committed (s_candidate s)))) as [prev|] eqn:D.
    + apply some_inj in E. unfold batch in E. rewrite extend_eq in E. fold (batch (do _ <- extend now h prev; do _ <- State_Commit; ret SUCCESS) s) in E.
      destruct (status_dec r) as [->|N].
      * apply single_extend with prev; auto.
      * apply single_nothing; [exact N|]. eapply commit_last; [exact Q|apply frames_extend|exact E|exact N].
    + apply some_inj in E. cbn in E. injection E as <- <-. apply single_nothing; [discriminate|]. rewrite quiet_end_id by exact Q. apply same_stores_refl.
  - rewrite QC in E.
    destruct (collect fuel (committed (s_candidate s)) (committed (s_db s)) (s_orphans s) h []) as [[[[[|front rest]|] c]| |]|] eqn:C; try discriminate.
    + apply some_inj in E. cbn in E. injection E as <- <-. apply single_nothing; [discriminate|].
      apply (end_same_stores s (set_orphans s c) Q). repeat split.
    + apply some_inj in E. unfold batch in E. rewrite finish_eq in E.
      fold (batch (do _ <- reorg now (GetTotalDifficulty s) (h_totalDifficulty h) front rest; do _ <- State_Commit; ret SUCCESS) (set_orphans s c)) in E.
      destruct (status_dec r) as [->|N].
      * assert (W : GetTotalDifficulty s = work s). { unfold GetTotalDifficulty, work, stored, GetBlockHeader, best, headers_db. rewrite QB, QC. reflexivity. }
        rewrite W in E. eapply single_reorg; eauto.
      * apply single_nothing; [exact N|].
        pose proof (commit_last _ (set_orphans s c) r s' (quiet_orphans s c Q) (frames_reorg _ _ _ _ _) E N) as S.
        unfold same_stores in *. exact S.
    + apply some_inj in E. apply single_nothing; [|].
      * intros ->. unfold batch, finish_orphan, AddOrphanHeader, bind, get, lift, put, ret in E. cbn [s_orphans set_orphans] in E.
        destruct (Put bytes_eqb LRU c (BlockHeader_GetHash h) h); discriminate.
      * assert (F : frames (finish_orphan Blake2b env pow_keys now (GetTotalDifficulty s) h None)).
        { cbn. apply frames_bind; [apply frames_orphan|intros _; apply frames_ret]. }
        pose proof (batch_frames _ (set_orphans s c) r s' (quiet_orphans s c Q) F E) as S. exact S.
    + injection E as <- <-. apply single_nothing; [discriminate|]. rewrite quiet_end_id by exact Q. apply same_stores_refl.
    + injection E as <- <-. apply single_nothing; [discriminate|]. rewrite quiet_end_id by exact Q. apply same_stores_refl.
Qed.

Inductive chunk_case (now : Z) (hs : list BlockHeader) (s : cstate) (r : outcome EBlockChainStatus) (s' : cstate) : Prop :=
| chunk_nothing : r <> Ret SUCCESS -> same_stores s s' -> chunk_case now hs s r s'
| chunk_reorg first front rest : hd_error hs = Some first ->
    on_chain (best s) (sub64 (h_height first) 1) (h_previousBlockHash first) = true ->
    skip_known (best s) hs = front :: rest ->
    batch (do _ <- reorg now (work s) (h_totalDifficulty (last (front :: rest) front)) front rest; do _ <- State_Commit; ret SUCCESS) s = (r, s') ->
    r = Ret SUCCESS -> chunk_case now hs s r s'.
Lemma chunk_cases now hs s r s' : quiet s ->
  ProcessChunkedSyncHeaders Blake2b env pow_keys now hs s = (r, s') -> chunk_case now hs s r s'.
Proof.
  intros Q E. unfold ProcessChunkedSyncHeaders in E. pose proof Q as (QA & QB & QC & QD & QE).
  unfold batch in E. unfold bind at 1, get at 1 in E.
  destruct hs as [|first hs0].
  { cbn in E. injection E as <- <-. apply chunk_nothing; [discriminate|]. rewrite quiet_end_id by exact Q. apply same_stores_refl. }
  set (hs := first :: hs0) in *. cbv zeta in E. rewrite QB in E.
  destruct (on_chain (committed (s_candidate s)) (sub64 (h_height first) 1) (h_previousBlockHash first)) eqn:P; cbn [negb] in E.
  2:{ cbn in E. injection E as <- <-. apply chunk_nothing; [discriminate|]. rewrite quiet_end_id by exact Q. apply same_stores_refl. }
  destruct (skip_known (committed (s_candidate s)) hs) as [|front rest] eqn:K.
  { cbn in E. injection E as <- <-. apply chunk_nothing; [discriminate|]. rewrite quiet_end_id by exact Q. apply same_stores_refl. }
  match type of E with (let '(_, _) := ?m s in _) = _ =>
    replace (m s) with ((do _ <- reorg now (GetTotalDifficulty s) (h_totalDifficulty (last (front :: rest) front)) front rest; do _ <- State_Commit; ret SUCCESS) s) in E end.
  2:{ unfold reorg. rewrite !bind_assoc. apply bind_ext. intros _ s1. rewrite !bind_assoc. apply bind_ext. intros _ s2. rewrite !bind_assoc. reflexivity. }
  fold (batch (do _ <- reorg now (GetTotalDifficulty s) (h_totalDifficulty (last (front :: rest) front)) front rest; do _ <- State_Commit; ret SUCCESS) s) in E.
  assert (W : GetTotalDifficulty s = work s). { unfold GetTotalDifficulty, work, stored, GetBlockHeader, best, headers_db. rewrite QB, QC. reflexivity. }
  rewrite W in E. destruct (status_dec r) as [->|N].
  - eapply chunk_reorg; eauto. reflexivity.
  - apply chunk_nothing; [exact N|]. eapply commit_last; [exact Q|apply frames_reorg|exact E|exact N].
Qed.
Lemma single_quiet fuel now h s r s' : quiet s ->
  ProcessSingleHeader Blake2b BAD_BLOCKS env pow_keys fuel now h s = Some (r, s') -> quiet s'.
Proof.
  intros Q E. destruct (single_cases fuel now h s r s' Q E) as [N S|p D L B R|f c f0 r0 c0 C -> B R].
  - destruct S as (A & B & C & D & F). destruct Q as (QA & QB & QC & QD & QE). unfold quiet. rewrite A, B, C, D, F. auto.
  - exact (quiet_batch _ _ _ _ B).
  - exact (quiet_batch _ _ _ _ B).
Qed.
Lemma chunk_quiet now hs s r s' : ProcessChunkedSyncHeaders Blake2b env pow_keys now hs s = (r, s') -> quiet s'.
Proof. exact (quiet_batch _ _ _ _). Qed.

(** ** What a successful batch did *)
Fixpoint added (len : nat) (f : list bytes) (p : BlockHeader) (hs : list BlockHeader) (f' : list bytes) : Prop :=
  match hs with
  | [] => f' = f
  | h :: rest =>
    h_height h = N.of_nat len /\ h_height h = add64 (h_height p) 1 /\
    (env <> AUTOMATED_TESTING -> h_totalDifficulty p < h_totalDifficulty h) /\
    HeaderRoot Blake2b f (sub64 (h_height h) 1) = Ret (h_previousRoot h) /\
    exists f1, AddHashes Blake2b f (header_leaf h) = Ret f1 /\ added (S len) f1 h rest f'
  end.
Definition entry (h : BlockHeader) : bytes * BlockHeader := (BlockHeader_GetHash h, h).

Lemma loop_ok now hs : forall p s s', validate_loop Blake2b env pow_keys now p hs s = (Ret tt, s') ->
  now_ (s_candidate s') = now_ (s_candidate s) ++ map BlockHeader_GetHash hs /\
  now_ (s_db s') = rev (map entry hs) ++ now_ (s_db s) /\
  added (length (now_ (s_candidate s))) (now_ (s_mmr s)) p hs (now_ (s_mmr s')) /\
  s_confirmed s' = s_confirmed s /\ s_orphans s' = s_orphans s /\ same_com s s' /\
  (mmr_dirty s' = match hs with [] => mmr_dirty s | _ => true end).
Proof.
  induction hs as [|h hs IH]; intros p s s' E; cbn [validate_loop] in E.
  - injection E as <-. cbn. rewrite app_nil_r. repeat split.
  - apply bind_inv in E. destruct E as ([] & s1 & E1 & E). apply bind_inv in E. destruct E as ([] & s2 & E2 & E).
    apply bind_inv in E. destruct E as ([] & s3 & E3 & E). apply bind_inv in E. destruct E as ([] & s4 & E4 & E).
    unfold Validate_, bind, get, lift in E1. destruct (ValidateHeader _ _ _ _ _ _ _) as [[]| |] eqn:V in E1; try discriminate. injection E1 as <-.
    apply validate_ok in V. destruct V as (V1 & V2 & V3).
    unfold MMR_AddHeader, bind, get, lift, put in E2. destruct (AddHashes Blake2b (now_ (s_mmr s)) (header_leaf h)) as [f1| |] eqn:A; try discriminate.
    injection E2 as <-. unfold AddBlockHeader, bind, get, put in E3. injection E3 as <-.
    unfold Chain_AddBlock, bind, get, put in E4. cbn [set_db set_mmr s_candidate] in E4.
    destruct (h_height h =? N.of_nat (length (now_ (s_candidate s)))) eqn:L; [|discriminate]. injection E4 as <-. apply N.eqb_eq in L.
    specialize (IH _ _ _ E). cbn [set_candidate set_db set_mmr s_candidate s_db s_mmr s_confirmed s_orphans mmr_dirty set_now now_ committed] in IH.
    destruct IH as (I1 & I2 & I3 & I4 & I5 & I6 & I7). split; [|split; [|split; [|split; [|split; [|split]]]]].
    + rewrite I1, <- app_assoc. reflexivity.
    + rewrite I2. cbn [map rev]. rewrite <- app_assoc. reflexivity.
    + cbn [added]. split; [exact L|]. split; [exact V1|]. split; [exact V2|]. split; [exact V3|].
      exists f1. split; [exact A|]. rewrite app_length in I3. cbn [length] in I3. rewrite Nat.add_1_r in I3. exact I3.
    + exact I4.
    + exact I5.
    + exact I6.
    + destruct hs; exact I7.
Qed.

(** The effect of a successful call on the committed stores. *)
Record accepted (s s' : cstate) (hs : list BlockHeader) (moved : bool) : Prop := mkAccepted {
  a_quiet : quiet s';
  a_confirmed : s_confirmed s' = s_confirmed s;
  a_db : headers_db s' = rev (map entry hs) ++ headers_db s;
  a_stay : moved = false -> best s' = best s /\ committed (s_mmr s') = committed (s_mmr s);
  a_chain : exists p len f f', db_find (headers_db s) (match hs with h :: _ => h_previousBlockHash h | [] => [] end) = Some p /\
    added len f p hs f' /\ (len <= length (best s))%nat /\ (0 < len)%nat /\ hs <> [] /\
    (f = committed (s_mmr s) \/ RewindHashes (committed (s_mmr s)) (N.of_nat len) = Ret f) /\
    (f = committed (s_mmr s) -> lidx_position (LeafIndex_At (N.of_nat len)) = GetSize (committed (s_mmr s)) \/ len = length (best s)) /\
    (moved = true -> best s' = firstn len (best s) ++ map BlockHeader_GetHash hs /\ committed (s_mmr s') = f')
}.

Lemma extend_ok now h prev s s' : quiet s -> best s <> [] ->
  stored s (tip_hash (best s)) = Some prev -> h_previousBlockHash h = tip_hash (best s) ->
  batch (do _ <- extend now h prev; do _ <- State_Commit; ret SUCCESS) s = (Ret SUCCESS, s') ->
  accepted s s' [h] true /\ s_orphans s' = s_orphans s.
Proof.
  intros Q NE D L B. pose proof (quiet_batch _ _ _ _ B) as Q'. unfold batch in B.
  destruct ((do _ <- extend now h prev; do _ <- State_Commit; ret SUCCESS) s) as [r s1] eqn:E. injection B as -> <-.
  apply bind_inv in E. destruct E as ([] & s2 & E & E9). unfold extend in E.
  apply bind_inv in E. destruct E as ([] & s3 & E1 & E). apply bind_inv in E. destruct E as ([] & s4 & E2 & E).
  apply bind_inv in E. destruct E as ([] & s5 & E3 & E4).
  unfold Validate_, bind, get, lift in E1. destruct (ValidateHeader _ _ _ _ _ _ _) as [[]| |] eqn:V in E1; try discriminate. injection E1 as <-.
  apply validate_ok in V. destruct V as (V1 & V2 & V3).
  unfold AddBlockHeader, bind, get, put in E2. injection E2 as <-.
  unfold MMR_AddHeader, bind, get, lift, put in E3. cbn [set_db s_mmr] in E3.
  destruct (AddHashes Blake2b (now_ (s_mmr s)) (header_leaf h)) as [f1| |] eqn:A; try discriminate.
  injection E3 as <-. unfold Chain_AddBlock, bind, get, put in E4. cbn [set_db set_mmr s_candidate] in E4.
  destruct (h_height h =? N.of_nat (length (now_ (s_candidate s)))) eqn:Len; [|discriminate]. injection E4 as <-. apply N.eqb_eq in Len.
  unfold State_Commit, bind, get, put, ret, mmr_commit in E9. cbn in E9. injection E9 as <-.
  pose proof Q as (QA & QB & QC & QD & QE). split; [|reflexivity]. constructor.
  - exact Q'.
  - unfold end_writer, drop. cbn. destruct s as [[? ?] ? ? ? ? ?]. cbn in *. subst. reflexivity.
  - unfold headers_db. cbn. rewrite QC. reflexivity.
  - discriminate.
  - exists prev, (length (best s)), (committed (s_mmr s)), f1. rewrite L. split; [exact D|]. unfold best in *. rewrite QB in Len. rewrite QD in A, V3.
    split; [|split; [|split; [|split; [|split; [|split]]]]].
    + cbn [added]. split; [exact Len|]. split; [exact V1|]. split; [exact V2|]. split; [exact V3|]. exists f1. auto.
    + lia.
    + destruct (committed (s_candidate s)); [contradiction|cbn; lia].
    + discriminate.
    + left. reflexivity.
    + auto.
    + intros _. cbn. rewrite firstn_all, QB. auto.
Qed.

Lemma reorg_ok now total td front rest s s' : quiet s -> h_height front < W64 ->
  batch (do _ <- reorg now total td front rest; do _ <- State_Commit; ret SUCCESS) s = (Ret SUCCESS, s') ->
  accepted s s' (front :: rest) (negb (td <=? total)) /\ s_orphans s' = s_orphans s.
Proof.
  intros Q HW B. pose proof (quiet_batch _ _ _ _ B) as Q'. unfold batch in B.
  destruct ((do _ <- reorg now total td front rest; do _ <- State_Commit; ret SUCCESS) s) as [r s1] eqn:E. injection B as -> <-.
  apply bind_inv in E. destruct E as ([] & s2 & E & E9). unfold reorg in E.
  apply bind_inv in E. destruct E as ([] & s3 & E1 & E). apply bind_inv in E. destruct E as ([] & s4 & E2 & E).
  apply bind_inv in E. destruct E as ([] & s5 & E3 & E4).
  pose proof Q as (QA & QB & QC & QD & QE).
  unfold Chain_Rewind, bind, get, put in E1. destruct (_ <? _) eqn:LR in E1; [|discriminate]. injection E1 as <-. apply N.ltb_lt in LR.
  set (base := firstn (N.to_nat (sub64 (h_height front) 1 + 1)) (now_ (s_candidate s))) in *.
  assert (M4 : exists f, now_ (s_mmr s4) = f /\ now_ (s_candidate s4) = base /\ s_db s4 = s_db s /\ s_confirmed s4 = s_confirmed s /\
     s_orphans s4 = s_orphans s /\ committed (s_mmr s4) = committed (s_mmr s) /\ committed (s_candidate s4) = committed (s_candidate s) /\
     ((f = committed (s_mmr s) /\ lidx_position (LeafIndex_At (h_height front)) = GetSize (committed (s_mmr s))) \/
      (RewindHashes (committed (s_mmr s)) (h_height front) = Ret f /\ lidx_position (LeafIndex_At (h_height front)) <> GetSize (committed (s_mmr s))))).
  { unfold MMR_Rewind, bind, get, put, lift in E2. cbn [set_candidate s_mmr] in E2. rewrite QD in E2.
    destruct (_ =? _) eqn:Sz in E2.
    - unfold ret in E2. injection E2 as <-. apply N.eqb_eq in Sz. exists (committed (s_mmr s)). cbn. rewrite QD. repeat split. left. auto.
    - destruct (RewindHashes (committed (s_mmr s)) (h_height front)) as [f| |] eqn:R; try discriminate. injection E2 as <-.
      apply N.eqb_neq in Sz. exists f. cbn. repeat split. right. auto. }
  destruct M4 as (f & M1 & M2 & M3 & M4 & M5 & M6 & M7 & M8).
  unfold ValidateHeaders, bind at 1, get at 1 in E3. destruct (GetBlockHeader s4 (h_previousBlockHash front)) as [p|] eqn:G; [|discriminate].
  apply loop_ok in E3. destruct E3 as (I1 & I2 & I3 & I4 & I5 & I6 & I7).
  unfold GetBlockHeader in G. rewrite M3, QC in G. rewrite M1, M2 in *. rewrite M3, QC in I2.
  assert (Hf : h_height front = N.of_nat (length base)) by (cbn [added] in I3; apply I3).
  assert (Hb : (0 < length base)%nat).
  { unfold base. rewrite firstn_length. clear -LR. lia. }
  assert (Hpos : 0 < h_height front) by lia.
  assert (Hn : sub64 (h_height front) 1 + 1 = h_height front) by (rewrite sub64_small by lia; lia).
  assert (Hbase : base = firstn (length base) (best s)).
  { unfold base at 1. rewrite Hn, Hf, QB, Nat2N.id. reflexivity. }
  assert (Hlen : (length base <= length (best s))%nat).
  { unfold base. rewrite QB. rewrite firstn_length. unfold best. lia. }
  assert (Hchain : exists p len f0 f', db_find (headers_db s) (h_previousBlockHash front) = Some p /\
    added len f0 p (front :: rest) f' /\ (len <= length (best s))%nat /\ (0 < len)%nat /\ front :: rest <> [] /\
    (f0 = committed (s_mmr s) \/ RewindHashes (committed (s_mmr s)) (N.of_nat len) = Ret f0) /\
    (f0 = committed (s_mmr s) -> lidx_position (LeafIndex_At (N.of_nat len)) = GetSize (committed (s_mmr s)) \/ len = length (best s)) /\
    len = length base /\ f0 = f /\ f' = now_ (s_mmr s5)).
  { exists p, (length base), f, (now_ (s_mmr s5)). split; [exact G|]. split; [exact I3|]. split; [exact Hlen|]. split; [exact Hb|].
    split; [discriminate|]. rewrite <- Hf. split; [|split; [|auto]].
    - destruct M8 as [[-> _]|[R _]]; auto.
    - intros Ef. left. destruct M8 as [[_ R]|[R N]]; [exact R|]. exfalso. unfold RewindHashes in R. cbv zeta in R.
      destruct (_ <=? _) eqn:Le in R; [|discriminate]. apply N.leb_le in Le. apply ret_inj in R. apply N. unfold GetSize in *.
assert (LF : length f = length (committed (s_mmr s))) by (rewrite Ef; reflexivity). rewrite <- R, firstn_length in LF. clear -Le LF; lia. }
  destruct Hchain as (p' & len & f0 & f' & C1 & C2 & C3 & C4 & C5 & C6 & C7 & -> & -> & ->).
  destruct (td <=? total) eqn:T; cbn [negb].
  - apply bind_inv in E4. destruct E4 as ([] & s6 & E4 & E5). unfold MMR_Rollback, bind, get, put in E4. rewrite I7 in E4. injection E4 as <-.
    unfold Chain_Rollback, bind, get, put in E5. injection E5 as <-.
    unfold State_Commit, bind, get, put, ret, mmr_commit in E9. cbn in E9. injection E9 as <-.
    destruct I6 as (J1 & J2 & J3 & J4). split; [|cbn; rewrite I5, M5; reflexivity]. constructor.
    + exact Q'.
    + unfold end_writer, drop. cbn. rewrite I4, M4. destruct s as [[? ?] ? ? ? ? ?]. cbn in *. subst. reflexivity.
    + unfold headers_db. cbn. rewrite I2. reflexivity.
    + intros _. unfold best. cbn. split; congruence.
    + exists p', (length base), f, (now_ (s_mmr s5)). repeat (split; [assumption|]). discriminate.
  - unfold ret in E4. injection E4 as <-. unfold State_Commit, bind, get, put, ret, mmr_commit in E9. cbn in E9. rewrite I7 in E9.
    cbn in E9. injection E9 as <-. split; [|cbn; rewrite I5, M5; reflexivity]. constructor.
    + exact Q'.
    + unfold end_writer, drop. cbn. rewrite I4, M4. destruct s as [[? ?] ? ? ? ? ?]. cbn in *. subst. reflexivity.
    + unfold headers_db. cbn. rewrite I2. reflexivity.
    + discriminate.
    + exists p', (length base), f, (now_ (s_mmr s5)). repeat (split; [assumption|]). intros _. unfold best in *. cbn.
      rewrite I1, <- Hbase. auto.
Qed.

(** ** The orphan pool *)
Definition still {A} (m : M A) : Prop := forall s, s_orphans (snd (m s)) = s_orphans s.
Lemma still_bind {A B} (m : M A) (k : A -> M B) : still m -> (forall a, still (k a)) -> still (bind m k).
Proof.
  intros H1 H2 s. unfold bind. specialize (H1 s). destruct (m s) as [[a| |] s1]; cbn in *; auto.
  rewrite <- H1. apply H2.
Qed.
Lemma still_id {A} (m : M A) : (forall s, snd (m s) = s) -> still m.
Proof. intros H s. rewrite H. reflexivity. Qed.
Lemma still_get {B} (k : cstate -> M B) : (forall s, s_orphans (snd (k s s)) = s_orphans s) -> still (bind get k).
Proof. intros H s. apply H. Qed.
Lemma still_commit : still State_Commit.
Proof. intros s. unfold State_Commit, bind, get, put, mmr_commit. cbn. destruct (mmr_dirty s); reflexivity. Qed.
Lemma still_mmr_add h : still (MMR_AddHeader Blake2b h).
Proof. intros s. unfold MMR_AddHeader, bind, get, lift. destruct (AddHashes _ _ _); reflexivity. Qed.
Lemma still_chain_add k h : still (Chain_AddBlock k h).
Proof. intros s. unfold Chain_AddBlock, bind, get. destruct (_ =? _); reflexivity. Qed.
Lemma still_add_header h : still (AddBlockHeader h).
Proof. intros s. reflexivity. Qed.
Lemma still_loop now hs : forall p, still (validate_loop Blake2b env pow_keys now p hs).
Proof.
  induction hs as [|h hs IH]; intros p; cbn [validate_loop]; [apply still_id; reflexivity|].
  apply still_bind; [apply still_id; reflexivity|intros _]. apply still_bind; [apply still_mmr_add|intros _].
  apply still_bind; [apply still_add_header|intros _]. apply still_bind; [apply still_chain_add|intros _]. apply IH.
Qed.
Lemma still_reorg now total td front rest : still (reorg now total td front rest).
Proof.
  unfold reorg. apply still_bind; [|intros _; apply still_bind; [|intros _; apply still_bind; [|intros _]]].
  - intros s. unfold Chain_Rewind, bind, get. destruct (_ <? _); reflexivity.
  - intros s. unfold MMR_Rewind, bind, get, lift. destruct (_ =? _); [reflexivity|]. destruct (RewindHashes _ _); reflexivity.
  - apply still_get. intros s. destruct (GetBlockHeader s _); [apply still_loop|reflexivity].
  - destruct (td <=? total); [|apply still_id; reflexivity]. apply still_bind; [|intros _ s; reflexivity].
    intros s. unfold MMR_Rollback, bind, get. destruct (mmr_dirty s); reflexivity.
Qed.
Lemma still_extend now h p : still (extend now h p).
Proof.
  unfold extend. apply still_bind; [apply still_id; reflexivity|intros _]. apply still_bind; [apply still_add_header|intros _].
  apply still_bind; [apply still_mmr_add|intros _]. apply still_chain_add.
Qed.
Lemma still_batch {A} (m : M A) s r s' : still m -> batch m s = (r, s') -> s_orphans s' = s_orphans s.
Proof. intros H B. unfold batch in B. specialize (H s). destruct (m s) as [a b]. injection B as <- <-. exact H. Qed.

(** ** Following a branch down to the chain *)
Lemma single_orphans fuel now h s r s' : quiet s -> keyed (headers_db s) -> keyed (cache_items_map (s_orphans s)) ->
  ProcessSingleHeader Blake2b BAD_BLOCKS env pow_keys fuel now h s = Some (r, s') ->
  forall x, In x (cache_items_map (s_orphans s')) -> x = entry h \/ In x (cache_items_map (s_orphans s)).
Proof.
  intros Q Kd Kc E x. unfold ProcessSingleHeader in E. cbv zeta in E.
  destruct (BAD_BLOCKS _). { apply some_inj in E. injection E as <- <-. auto. }
  destruct (GetBlockHeader s _). { apply some_inj in E. injection E as <- <-. auto. }
  pose proof Q as (QA & QB & QC & QD & QE). rewrite QB in E.
  destruct (negb _).
  - rewrite QC in E. destruct (collect fuel _ _ _ h []) as [[[o c]| |]|] eqn:C; try discriminate;
      [|apply some_inj in E; injection E as <- <-; auto|apply some_inj in E; injection E as <- <-; auto].
    apply (collect_ok (fun _ => True)) in C; try exact Kd; try exact Kc; cbn; auto.
    destruct C as [C _]. apply some_inj in E. intros Hx.
    destruct o as [[|front rest]|].
    + unfold batch, finish_orphan, fault in E. injection E as <- <-. right. apply C, Hx.
    + unfold batch in E. rewrite finish_eq in E. 
      fold (batch (do _ <- reorg now (GetTotalDifficulty s) (h_totalDifficulty h) front rest; do _ <- State_Commit; ret SUCCESS) (set_orphans s c)) in E.
      apply still_batch in E.
      2:{ apply still_bind; [apply still_reorg|intros _]. apply still_bind; [apply still_commit|intros _]. apply still_id. reflexivity. }
      rewrite E in Hx. right. apply C, Hx.
    + unfold batch, finish_orphan, AddOrphanHeader, bind, get, lift, put, ret in E. cbn [s_orphans set_orphans] in E.
      destruct (Put bytes_eqb LRU c (BlockHeader_GetHash h) h) as [c2| |] eqn:Pu; injection E as <- <-; cbn in Hx.
      * apply (put_items _ _ _ _ _ Pu) in Hx. destruct Hx as [->|Hx]; [left; reflexivity|right; apply C, Hx].
      * right. apply C, Hx.
      * right. apply C, Hx.
  - apply some_inj in E. intros Hx. right. destruct (GetBlockHeader s _).
    + unfold batch in E. rewrite extend_eq in E.
      fold (batch (do _ <- extend now h b; do _ <- State_Commit; ret SUCCESS) s) in E. apply still_batch in E.
      2:{ apply still_bind; [apply still_extend|intros _]. apply still_bind; [apply still_commit|intros _]. apply still_id. reflexivity. }
      rewrite E in Hx. exact Hx.
    + unfold batch, fault in E. injection E as <- <-. exact Hx.
Qed.
Lemma chunk_orphans now hs s r s' : ProcessChunkedSyncHeaders Blake2b env pow_keys now hs s = (r, s') -> s_orphans s' = s_orphans s.
Proof.
  apply still_batch. apply still_get. intros s0. destruct hs as [|first hs0]; [reflexivity|]. cbv zeta.
  destruct (negb _); [reflexivity|]. destruct (skip_known _ _) as [|front rest]; [reflexivity|].
  pose proof (still_bind _ (fun _ => do _ <- State_Commit; ret SUCCESS)
    (still_reorg now (GetTotalDifficulty s0) (h_totalDifficulty (last (front :: rest) front)) front rest)) as S.
  match goal with |- s_orphans (snd (?m s0)) = _ =>
    replace (m s0) with ((do _ <- reorg now (GetTotalDifficulty s0) (h_totalDifficulty (last (front :: rest) front)) front rest; do _ <- State_Commit; ret SUCCESS) s0) end.
  - apply S. intros _. apply still_bind; [apply still_commit|intros _]. apply still_id. reflexivity.
  - unfold reorg. rewrite !bind_assoc. apply bind_ext. intros _ s1. rewrite !bind_assoc. apply bind_ext. intros _ s2. rewrite !bind_assoc. reflexivity.
Qed.
End Proofs.
