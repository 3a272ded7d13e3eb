(** Properties C17 (the best chain has the most work), C18 (rejected headers change nothing) and C44 (header
    processing terminates). [Blake2b], the bad block list, the siphash keys and the genesis header are arbitrary. *)
From Verif Require Import Base Bytes MMRIndexModel MMRHashModel MMRHashSpec CodecModel ConsensusModel CuckooModel DifficultyModel
  CacheModel CacheProofs HeaderModel HeaderSpec HeaderProofs HeaderInv HeaderWork HeaderLink HeaderStored.
From Verif Require Import MMRHashProps DifficultyProps.
Local Open Scope N_scope.

(** All heights received are below 2^62. *)
Definition plausible (e : event) : Prop := Forall (fun h => h_height h < 4611686018427387904) (brings e).

Section Props.
Variable Blake2b : bytes -> bytes.
Variable BAD_BLOCKS : bytes -> bool.
Variable env : Environment.
Variable pow_keys : BlockHeader -> sip.
Variable genesis : BlockHeader.
Notation run fuel es s := (handle_all Blake2b BAD_BLOCKS env pow_keys fuel genesis es s).
Notation start := (started Blake2b genesis).

(** After any sequence of headers, batches and restarts, the best chain starts at the genesis header, and the
    header at index i of it is stored and has height i. *)
Theorem C17_best_chain fuel es rs s :
  h_height genesis = 0 -> Forall plausible es -> run fuel es start = Some (rs, s) ->
  exists hs, best_headers s hs /\ hd_error hs = Some genesis /\ forall i h, nth_error hs i = Some h -> h_height h = N.of_nat i.
Proof.
  intros H0 Hp E. assert (Sg : small genesis) by (unfold small; lia).
  destruct (handle_all_inv _ _ _ _ _ _ _ _ _ _ _ (started_inv Blake2b env genesis Sg H0) Sg Hp E) as [hs I].
  exists hs. split; [split; [apply I|apply I]|]. split; apply I.
Qed.

(** The last header of the best chain has at least as much total difficulty as every header stored, on the best chain
    or not. *)
Theorem C17_most_work fuel es rs s :
  env <> AUTOMATED_TESTING -> h_height genesis = 0 -> Forall plausible es -> run fuel es start = Some (rs, s) ->
  unique_hashes s ->
  exists tip, stored s (last (best s) []) = Some tip /\
    forall hash h, stored s hash = Some h -> h_totalDifficulty h <= h_totalDifficulty tip.
Proof.
  intros He H0 Hp E U. assert (Sg : small genesis) by (unfold small; lia).
  pose proof (started_inv Blake2b env genesis Sg H0) as I0.
  destruct (handle_all_inv _ _ _ _ _ _ _ _ _ _ _ I0 Sg Hp E) as [hs I].
  destruct (run_most _ _ _ _ _ _ _ _ _ _ _ I0 Sg Hp He E) as [_ M].
  destruct (M U (started_most Blake2b BAD_BLOCKS env pow_keys genesis H0)) as [Mo _].
  destruct (tip_in _ _ _ _ I) as (t & _ & T1 & T2). exists t.
  assert (T3 : stored s (last (best s) []) = Some t). { unfold stored. rewrite T1. apply find_unique; [exact U|exact T2]. }
  split; [exact T3|]. intros k h Hk. apply db_find_in in Hk. specialize (Mo _ _ Hk). unfold work in Mo. rewrite T3 in Mo. exact Mo.
Qed.

(** From any reachable state on, the work of the best chain never decreases, and the chain changes only to
    one with more work. *)
Theorem C17_work_never_decreases fuel es1 es2 rs1 rs2 s1 s2 :
  env <> AUTOMATED_TESTING -> h_height genesis = 0 -> Forall plausible (es1 ++ es2) ->
  run fuel es1 start = Some (rs1, s1) -> run fuel es2 s1 = Some (rs2, s2) -> unique_hashes s2 ->
  work s1 <= work s2 /\ (best s2 = best s1 \/ work s1 < work s2).
Proof.
  intros He H0 Hp E1 E2 U. assert (Sg : small genesis) by (unfold small; lia). apply Forall_app in Hp. destruct Hp as [Hp1 Hp2].
  pose proof (started_inv Blake2b env genesis Sg H0) as I0.
  destruct (handle_all_inv _ _ _ _ _ _ _ _ _ _ _ I0 Sg Hp1 E1) as [hs I].
  destruct (run_most _ _ _ _ _ _ _ _ _ _ _ I Sg Hp2 He E2) as [[pre D] M2].
  destruct (run_most _ _ _ _ _ _ _ _ _ _ _ I0 Sg Hp1 He E1) as [_ M1].
  destruct (M1 (unique_before _ _ _ D U) (started_most Blake2b BAD_BLOCKS env pow_keys genesis H0)) as [Mo _].
  apply (M2 U Mo).
Qed.

(** A header accepted on its own is stored, and becomes the end of the best chain exactly when it has more total
    difficulty than the end of the best chain had. Otherwise the best chain does not change. *)
Theorem C17_accepted_header fuel es rs s now h s' :
  env <> AUTOMATED_TESTING -> h_height genesis = 0 -> Forall plausible es -> plausible (Header now h) ->
  run fuel es start = Some (rs, s) ->
  ProcessSingleHeader Blake2b BAD_BLOCKS env pow_keys fuel now h s = Some (Ret SUCCESS, s') -> unique_hashes s' ->
  stored s' (BlockHeader_GetHash h) = Some h /\
  (work s < h_totalDifficulty h -> last (best s') [] = BlockHeader_GetHash h /\ work s' = h_totalDifficulty h) /\
  (h_totalDifficulty h <= work s -> best s' = best s /\ work s' = work s).
Proof.
  intros He H0 Hp Hh E P U. assert (Sg : small genesis) by (unfold small; lia). assert (Sh : small h) by (inversion Hh; assumption).
  pose proof (started_inv Blake2b env genesis Sg H0) as I0.
  destruct (handle_all_inv _ _ _ _ _ _ _ _ _ _ _ I0 Sg Hp E) as [hs I].
  destruct (single_work _ _ _ _ _ _ _ _ _ _ _ _ I Sh He U P) as [[N _]|(_ & Hi & C)]; [contradiction|].
  split; [unfold stored; apply find_unique; [exact U|exact Hi]|].
  destruct C as [(C1 & C2 & C3)|(C1 & C2 & C3)]; split; intros W; try lia; auto.
Qed.

(** Every stored header but the genesis was accepted on top of a stored header one lower with less total difficulty. *)
Theorem C17_stored_headers_have_parents fuel es rs s hash h :
  env <> AUTOMATED_TESTING -> h_height genesis = 0 -> Forall plausible es -> run fuel es start = Some (rs, s) ->
  In (hash, h) (headers_db s) ->
  h = genesis \/ exists p, In (BlockHeader_GetHash p, p) (headers_db s) /\ h_height h = h_height p + 1 /\
                           h_totalDifficulty p < h_totalDifficulty h.
Proof.
  intros He H0 Hp E Hi. assert (Sg : small genesis) by (unfold small; lia).
  destruct (handle_all_inv _ _ _ _ _ _ _ _ _ _ _ (started_inv Blake2b env genesis Sg H0) Sg Hp E) as [hs I].
  apply (i_valid _ _ _ _ I He _ _ Hi).
Qed.

(** Every stored header but the genesis was validated when it arrived or later, on top of a stored header, and its hash is not on
    the list of bad blocks, however it reached the node: alone, in a batch, or by way of the orphan pool. *)
Theorem C17_stored_headers_validated fuel es rs s hash h :
  run fuel es start = Some (rs, s) -> In (hash, h) (headers_db s) ->
  h = genesis \/
  (BAD_BLOCKS (BlockHeader_GetHash h) = false /\
   validated env pow_keys (fun now => exists e, In e es /\ In now (clock e)) (headers_db s) h).
Proof.
  intros E Hi. pose proof (run_B Blake2b BAD_BLOCKS env pow_keys genesis (fun now => exists e, In e es /\ In now (clock e)) fuel es _ _ _
    (fun e t Hi Ht => ex_intro _ e (conj Hi Ht)) (started_B _ _ _ _ _ _) E) as (_ & K & _). exact (K _ _ Hi).
Qed.
(** A header on the list is refused, alone or in a batch, and then nothing is stored. *)
Theorem C17_bad_block_refused fuel now h hs s :
  BAD_BLOCKS (BlockHeader_GetHash h) = true ->
  ProcessSingleHeader Blake2b BAD_BLOCKS env pow_keys fuel now h s = Some (Ret INVALID, s) /\
  (In h hs -> ProcessSyncHeaders Blake2b BAD_BLOCKS env pow_keys now hs s = (Throw, s)).
Proof.
  intros Hb. split; [unfold ProcessSingleHeader; rewrite Hb; reflexivity|]. intros Hi. unfold ProcessSyncHeaders.
  destruct hs as [|front rest]; [contradiction|]. replace (existsb _ _) with true; [reflexivity|]. symmetry. apply existsb_exists. exists h. auto.
Qed.

(** The header MMR always holds exactly the best chain, and every header of the best chain commits to the headers before it:
    its previous root is the root of the mountain range over them. The node is assumed not to be
    restarted while its best chain is the genesis header alone (see the refutation below). *)
Theorem C17_headers_commit_to_chain fuel es rs s :
  (forall m, Blake2b m <> repeat 0 32) -> h_height genesis = 0 -> Forall plausible es ->
  late_restarts Blake2b BAD_BLOCKS env pow_keys genesis fuel es start ->
  run fuel es start = Some (rs, s) ->
  exists hs, best_headers s hs /\ hd_error hs = Some genesis /\
    (exists ts, is_mmr ts (map header_leaf hs) /\ committed (s_mmr s) = mmr_hashes Blake2b 0 ts) /\
    forall i h, (0 < i)%nat -> nth_error hs i = Some h ->
      exists ts, is_mmr ts (map header_leaf (firstn i hs)) /\ h_previousRoot h = mmr_root Blake2b ts.
Proof.
  intros Hnz H0 Hp Hr E. assert (Sg : small genesis) by (unfold small; lia).
  destruct (run_mmr _ _ _ _ _ _ _ _ _ _ _ Hnz (started_inv Blake2b env genesis Sg H0) Sg Hp (started_mmr Blake2b pow_keys genesis Sg) Hr E) as (hs & I & Ap & C).
  exists hs. split; [split; [apply I|apply I]|]. split; [apply I|]. split; [|exact C].
  assert (B : 2 * N.of_nat (length (leaves hs)) < W64).
  { unfold leaves. rewrite map_length. eapply inv_length; eauto. }
  destruct (C04_append_builds_mmr Blake2b (leaves hs) B) as (ts & T1 & T2). exists ts. split; [exact T1|].
  unfold has_mmr, leaves in *. rewrite Ap in T2. apply ret_inj in T2. exact T2.
Qed.

(** If headers arrive one by one, every header of the best chain names its predecessor's hash, and total difficulty increases
    strictly along the chain. Missing: headers received in batches, for which it is false. *)
Theorem C17_best_chain_linked_partial fuel es rs s :
  env <> AUTOMATED_TESTING -> h_height genesis = 0 -> Forall plausible es -> Forall single es ->
  run fuel es start = Some (rs, s) -> unique_hashes s ->
  exists hs, best_headers s hs /\ hd_error hs = Some genesis /\ linked hs.
Proof.
  intros He H0 Hp Hs E U. assert (Sg : small genesis) by (unfold small; lia).
  destruct (run_linked _ _ _ _ _ _ _ _ _ _ _ (started_inv Blake2b env genesis Sg H0) Sg Hp Hs He Logic.I E U) as (hs & I & L).
  exists hs. split; [split; [apply I|apply I]|]. split; [apply I|exact L].
Qed.

(** A header that is not accepted leaves both chains, the header database and the header MMR as they were; only
    the orphan pool may change. *)
Theorem C18_rejected_header_changes_nothing fuel es rs s now h r s' :
  h_height genesis = 0 -> Forall plausible es -> run fuel es start = Some (rs, s) ->
  ProcessSingleHeader Blake2b BAD_BLOCKS env pow_keys fuel now h s = Some (r, s') -> r <> Ret SUCCESS ->
  same_stores s s'.
Proof.
  intros H0 Hp E P N. assert (Sg : small genesis) by (unfold small; lia).
  destruct (handle_all_inv _ _ _ _ _ _ _ _ _ _ _ (started_inv Blake2b env genesis Sg H0) Sg Hp E) as [hs I].
  destruct (single_cases _ _ _ _ _ _ _ _ _ _ (i_quiet _ _ _ _ I) P) as [_ S|p D L B R|f c f0 r0 c0 C E0 B R]; [exact S|contradiction|contradiction].
Qed.
(** A batch that is not accepted leaves exactly what accepting its first headers leaves: none of them if the
    batch has fewer than 128 headers. *)
Theorem C18_rejected_batch_keeps_accepted_prefix fuel es rs s now hs r s' :
  h_height genesis = 0 -> Forall plausible es -> run fuel es start = Some (rs, s) ->
  ProcessSyncHeaders Blake2b BAD_BLOCKS env pow_keys now hs s = (r, s') -> r <> Ret SUCCESS ->
  exists before after s1, hs = before ++ after /\
    ProcessSyncHeaders Blake2b BAD_BLOCKS env pow_keys now before s = (Ret SUCCESS, s1) /\ same_stores s1 s' /\
    (before = [] \/ (128 <= length before)%nat).
Proof.
  intros H0 Hp E P N. assert (Sg : small genesis) by (unfold small; lia).
  destruct (handle_all_inv _ _ _ _ _ _ _ _ _ _ _ (started_inv Blake2b env genesis Sg H0) Sg Hp E) as [l I].
  destruct (sync_fail _ _ _ _ _ _ _ _ _ (i_quiet _ _ _ _ I) P N) as (h1 & h2 & s1 & A & B & C & D & _). exists h1, h2, s1. auto.
Qed.
Theorem C18_rejected_short_batch_changes_nothing fuel es rs s now hs r s' :
  h_height genesis = 0 -> Forall plausible es -> run fuel es start = Some (rs, s) -> (length hs <= 128)%nat ->
  ProcessSyncHeaders Blake2b BAD_BLOCKS env pow_keys now hs s = (r, s') -> r <> Ret SUCCESS -> same_stores s s'.
Proof.
  intros H0 Hp E Hl P N. assert (Sg : small genesis) by (unfold small; lia).
  destruct (handle_all_inv _ _ _ _ _ _ _ _ _ _ _ (started_inv Blake2b env genesis Sg H0) Sg Hp E) as [l I].
  destruct (sync_fail _ _ _ _ _ _ _ _ _ (i_quiet _ _ _ _ I) P N) as (h1 & h2 & s1 & A & B & C & D & F).
  destruct D as [D|D]; [rewrite (F D) in C; exact C|].
  assert (h2 = []). { rewrite A, app_length in Hl. unfold SYNC_BATCH_SIZE in D. destruct h2; [reflexivity|cbn in Hl; lia]. }
  subst h2. rewrite app_nil_r in A. subst h1. rewrite B in P. injection P as <- _. contradiction.
Qed.

(** Processing a header ends, if every header found by following a previous hash (in the database or the orphan pool) has a
    smaller height. Missing: headers that claim anything else, for which it is false. *)
Theorem C44_terminates_partial fuel now h s :
  quiet s ->
  (forall x t, (x = h \/ exists k, In (k, x) (headers_db s) \/ In (k, x) (cache_items_map (s_orphans s))) ->
     In (h_previousBlockHash x, t) (headers_db s) \/ In (h_previousBlockHash x, t) (cache_items_map (s_orphans s)) ->
     h_height t < h_height x) ->
  (N.to_nat (h_height h) < fuel)%nat ->
  ProcessSingleHeader Blake2b BAD_BLOCKS env pow_keys fuel now h s <> None.
Proof.
  intros Q D Hf E. unfold ProcessSingleHeader in E. cbv zeta in E. destruct (BAD_BLOCKS _); [discriminate|].
  destruct (GetBlockHeader s _); [discriminate|]. destruct (negb _); [|discriminate].
  destruct Q as (QA & QB & QC & QD & QE). rewrite QC in E.
  pose proof (collect_terminates (now_ (s_candidate s)) (committed (s_db s)) h fuel (s_orphans s) (s_orphans s) h [] D (fun _ x => x) (or_introl eq_refl) Hf) as T.
  destruct (collect fuel _ _ _ h []) as [[[o c]| |]|]; try discriminate. contradiction.
Qed.
End Props.

(** * A toy network: every header carries the same Cuckatoo cycle, found for the same keys. *)
Definition ex_hash (a : N) : bytes := [0;0;0;0;0;0;0;1] ++ repeat a 24.
Definition ex_genesis : BlockHeader :=
  mkHeader 1 0 1700000000 (repeat 9 32) [] [] [] [] [] 0 0 1000 1856 0 (mkPoW 24 (map (N.add 1) small_nonces) (ex_hash 0)).
Definition ex_keys (_ : BlockHeader) : sip := mkSip 28 2 3 4.
Definition ex_now : Z := 1800000000000000000.
Definition no_bad (_ : bytes) : bool := false.
Definition ex_start : cstate := started toy_hash ex_genesis.
Definition ex_run es s := handle_all toy_hash no_bad MAINNET ex_keys 10 ex_genesis es s.
(** A header mined on [parent], in a node in state [s], claiming the previous hash [previous]. *)
Definition mine (s : cstate) (parent : BlockHeader) (previous : bytes) (seconds : Z) (root : bytes) (a : N) : BlockHeader :=
  let draft td scaling := mkHeader 1 (h_height parent + 1) (h_timestamp parent + seconds) previous root [] [] [] [] 0 0 td scaling 0
                                  (mkPoW 24 small_nonces (ex_hash a)) in
  match CalculateNextDifficulty (db_find (headers_db s)) MAINNET (draft 0 0) with
  | Ret info => draft (h_totalDifficulty parent + hi_difficulty info) (hi_secondaryScaling info)
  | _ => draft 0 0
  end.
Definition ex_root (s : cstate) (height : N) : bytes :=
  match HeaderRoot toy_hash (committed (s_mmr s)) height with Ret r => r | _ => [] end.
Definition after es : cstate := match ex_run es ex_start with Some (_, s) => s | None => ex_start end.
Definition freeze (h : BlockHeader) : BlockHeader := h.

(** Two headers, one on the other. *)
Definition h1 : BlockHeader := Eval vm_compute in mine ex_start ex_genesis (ex_hash 0) 60 (ex_root ex_start 0) 1.
Definition h2 : BlockHeader := Eval vm_compute in
  mine (after [Header ex_now h1]) h1 (ex_hash 1) 60 (ex_root (after [Header ex_now h1]) 1) 2.
(** A sibling of [h1] and a child of it. *)
Definition f1 : BlockHeader := Eval vm_compute in mine ex_start ex_genesis (ex_hash 0) 90 (ex_root ex_start 0) 11.
Definition f2 : BlockHeader := Eval vm_compute in
  mine (after [Header ex_now f1]) f1 (ex_hash 11) 60 (ex_root (after [Header ex_now f1]) 1) 12.

Definition results (r : option (list (outcome EBlockChainStatus) * cstate)) : option (list (outcome EBlockChainStatus) * list bytes) :=
  match r with Some (rs, s) => Some (rs, best s) | None => None end.
(** The first sibling stays the best header, as both have the same work; the child of the second one takes over. *)
Example C17_example :
  results (ex_run [Header ex_now h1; Header ex_now f1] ex_start) = Some ([Ret SUCCESS; Ret SUCCESS], [ex_hash 0; ex_hash 1]) /\
  results (ex_run [Header ex_now h1; Header ex_now f1; Header ex_now f2] ex_start) =
    Some ([Ret SUCCESS; Ret SUCCESS; Ret SUCCESS], [ex_hash 0; ex_hash 11; ex_hash 12]).
Proof. split; vm_compute; reflexivity. Qed.
Example C17_example_hypotheses :
  h_height ex_genesis = 0 /\ Forall plausible [Header ex_now h1; Header ex_now f1; Header ex_now f2] /\
  (forall m, toy_hash m <> repeat 0 32) /\
  unique_hashes (after [Header ex_now h1; Header ex_now f1; Header ex_now f2]).
Proof.
  split; [reflexivity|]. split; [repeat constructor|]. split; [apply toy_hash_ok|].
  assert (E : headers_db (after [Header ex_now h1; Header ex_now f1; Header ex_now f2]) =
    [(ex_hash 12, f2); (ex_hash 11, f1); (ex_hash 11, f1); (ex_hash 1, h1); (ex_hash 0, ex_genesis)]) by (vm_compute; reflexivity).
  intros k h h' H H'. rewrite E in H, H'. cbn [In] in H, H'.
  repeat match goal with H : _ \/ _ |- _ => destruct H | H : False |- _ => destruct H end;
    repeat match goal with H : (_, _) = (_, _) |- _ => injection H as H; subst end; try reflexivity; discriminate.
Qed.
(** A rejected header: its previous root is wrong. *)
Example C18_example :
  let bad := mkHeader 1 2 (h_timestamp h2) (ex_hash 1) [1] [] [] [] [] 0 0 (h_totalDifficulty h2) (h_scalingDifficulty h2) 0 (h_proofOfWork h2) in
  results (ex_run [Header ex_now h1; Header ex_now bad; Header ex_now h2] ex_start) =
    Some ([Ret SUCCESS; Throw; Ret SUCCESS], [ex_hash 0; ex_hash 1; ex_hash 2]).
Proof. vm_compute. reflexivity. Qed.

(** In a batch, only the first header's previous hash is compared with the chain: a later one may name any stored header. Here
    the second header claims the genesis block as its predecessor. *)
Definition l2 : BlockHeader := Eval vm_compute in
  mine (after [Header ex_now h1]) h1 (ex_hash 0) 60 (ex_root (after [Header ex_now h1]) 1) 22.
Theorem C17_batch_linked_refuted : exists Blake2b bad keys genesis fuel es rs s hs a b,
  h_height genesis = 0 /\ Forall plausible es /\ handle_all Blake2b bad MAINNET keys fuel genesis es (started Blake2b genesis) = Some (rs, s) /\
  Forall (eq (Ret SUCCESS)) rs /\ best_headers s hs /\
  nth_error hs 1 = Some a /\ nth_error hs 2 = Some b /\ h_previousBlockHash b <> BlockHeader_GetHash a.
Proof.
  exists toy_hash, no_bad, ex_keys, ex_genesis, 10%nat, [Headers ex_now [h1; l2]], [Ret SUCCESS], (after [Headers ex_now [h1; l2]]),
    [ex_genesis; h1; l2], h1, l2.
  split; [reflexivity|]. split; [repeat constructor|]. split; [vm_compute; reflexivity|]. split; [repeat constructor|].
  assert (E : best (after [Headers ex_now [h1; l2]]) = [ex_hash 0; ex_hash 1; ex_hash 22] /\
    headers_db (after [Headers ex_now [h1; l2]]) = [(ex_hash 22, l2); (ex_hash 1, h1); (ex_hash 0, ex_genesis)]) by (vm_compute; split; reflexivity).
  destruct E as [E1 E2]. split; [|split; [reflexivity|split; [reflexivity|discriminate]]]. split.
  - rewrite E1. reflexivity.
  - intros h H. rewrite E2. cbn [In] in H |- *. destruct H as [<-|[<-|[<-|[]]]]; auto.
Qed.

(** A node restarted before it has any header after genesis adds the genesis header to its header MMR a second time. It then accepts
    the first header, and refuses the second one, which it would have accepted without the restart. *)
Theorem C17_early_restart_refuted : exists Blake2b bad keys genesis fuel now a b,
  h_height genesis = 0 /\
  results (handle_all Blake2b bad MAINNET keys fuel genesis [Header now a; Header now b] (started Blake2b genesis)) =
    Some ([Ret SUCCESS; Ret SUCCESS], [BlockHeader_GetHash genesis; BlockHeader_GetHash a; BlockHeader_GetHash b]) /\
  results (handle_all Blake2b bad MAINNET keys fuel genesis [Restart; Header now a; Header now b] (started Blake2b genesis)) =
    Some ([Ret SUCCESS; Ret SUCCESS; Throw], [BlockHeader_GetHash genesis; BlockHeader_GetHash a]).
Proof.
  exists toy_hash, no_bad, ex_keys, ex_genesis, 10%nat, ex_now, h1, h2. split; [reflexivity|]. split; vm_compute; reflexivity.
Qed.

(** A made-up header with the hash of a real one, put into the orphan pool first, hides the real one: the heavier branch on top of
    the real one is not followed. *)
Definition fake_f1 : BlockHeader :=
  mkHeader 1 1 0 (repeat 77 32) [] [] [] [] [] 0 0 0 0 0 (mkPoW 24 small_nonces (ex_hash 11)).
Theorem C17_orphan_hides_heavier_branch_refuted : exists Blake2b bad keys genesis fuel now fake a b c,
  h_height genesis = 0 /\ h_totalDifficulty a < h_totalDifficulty c /\
  results (handle_all Blake2b bad MAINNET keys fuel genesis [Header now a; Header now b; Header now c] (started Blake2b genesis)) =
    Some ([Ret SUCCESS; Ret SUCCESS; Ret SUCCESS], [BlockHeader_GetHash genesis; BlockHeader_GetHash b; BlockHeader_GetHash c]) /\
  results (handle_all Blake2b bad MAINNET keys fuel genesis [Header now fake; Header now a; Header now b; Header now c] (started Blake2b genesis)) =
    Some ([Ret ORPHANED; Ret SUCCESS; Ret SUCCESS; Ret ORPHANED], [BlockHeader_GetHash genesis; BlockHeader_GetHash a]).
Proof.
  exists toy_hash, no_bad, ex_keys, ex_genesis, 10%nat, ex_now, fake_f1, h1, f1, f2.
  split; [reflexivity|]. split; [reflexivity|]. split; vm_compute; reflexivity.
Qed.

(** A header whose previous hash is its own hash, sent twice, is processed forever (whatever its proof of work). *)
Definition ring : BlockHeader :=
  mkHeader 1 5 1700000000 (ex_hash 99) [] [] [] [] [] 0 0 0 0 0 (mkPoW 24 [] (ex_hash 99)).
Lemma ring_loops l db n : forall c acc, on_chain l 5 (ex_hash 99) = false ->
  (exists q, c = mkCache [(ex_hash 99, ring)] q 64 /\ In (ex_hash 99) q) -> collect n l db c ring acc = None.
Proof.
  induction n as [|n IH]; intros c acc O (q & -> & Hq); [reflexivity|]. cbn [collect].
  change (h_height ring) with 5. change (BlockHeader_GetHash ring) with (ex_hash 99). rewrite O. cbv zeta.
  change (h_previousBlockHash ring) with (ex_hash 99). unfold GetOrphanHeader, Cached, Get. cbn [cache_items_map map_find].
  rewrite (proj2 (bytes_eqb_spec (ex_hash 99) (ex_hash 99)) eq_refl). cbn [queue]. unfold policy_touch.
  destruct (CacheProofs.unlink_some bytes bytes_eqb bytes_eqb_spec q (ex_hash 99) Hq) as [q' ->]. cbn [obind fst snd].
  apply IH; [exact O|]. eexists. split; [reflexivity|]. left. reflexivity.
Qed.
Theorem C44_self_linked_header_loops_refuted : exists h now s,
  ex_run [Header now h] ex_start = Some ([Ret ORPHANED], s) /\
  forall fuel, ProcessSingleHeader toy_hash no_bad MAINNET ex_keys fuel now h s = None.
Proof.
  exists ring, ex_now, (after [Header ex_now ring]). split; [vm_compute; reflexivity|]. intros fuel.
  assert (S : after [Header ex_now ring] = set_orphans ex_start (mkCache [(ex_hash 99, ring)] [ex_hash 99] 64)) by (vm_compute; reflexivity).
  rewrite S. unfold ProcessSingleHeader, no_bad. cbv zeta.
  change (GetBlockHeader (set_orphans ex_start (mkCache [(ex_hash 99, ring)] [ex_hash 99] 64)) (BlockHeader_GetHash ring)) with (db_find [(ex_hash 0, ex_genesis)] (ex_hash 99)).
  replace (db_find [(ex_hash 0, ex_genesis)] (ex_hash 99)) with (@None BlockHeader) by (vm_compute; reflexivity).
  change (now_ (s_candidate (set_orphans ex_start (mkCache [(ex_hash 99, ring)] [ex_hash 99] 64)))) with [ex_hash 0].
  replace (bytes_eqb (tip_hash [ex_hash 0]) (h_previousBlockHash ring)) with false by (vm_compute; reflexivity). cbn [negb].
  rewrite ring_loops; [reflexivity|vm_compute; reflexivity|]. exists [ex_hash 99]. split; [reflexivity|left; reflexivity].
Qed.

(** On the testing network (where no proof of work is asked for): a heavier branch of 130 headers that leaves the chain before its tip.
    The 128th header of the branch has no more work than the current chain, so the first 128 headers are taken off the chain again, and
    the last two are refused because their predecessor is not on it. The node keeps the lighter chain, however often the branch is sent. *)
Definition t_header (height : N) (previous root : bytes) (td : N) (a : N) : BlockHeader :=
  mkHeader (GetHeaderVersion AUTOMATED_TESTING height) height (1700000000 + 60 * Z.of_N height) previous root [] [] [] [] 0 0 td 0 0
           (mkPoW 8 [a] (ex_hash a)).
Definition t_genesis : BlockHeader := t_header 0 (repeat 9 32) [] 1 0.
(** [n] headers on [parent], whose MMR file is [file]. *)
Fixpoint branch (n : nat) (file : list bytes) (parent : BlockHeader) (td : N -> N) : list BlockHeader :=
  match n with
  | O => []
  | S n' =>
    let root := match HeaderRoot toy_hash file (h_height parent) with Ret r => r | _ => [] end in
    let h := t_header (h_height parent + 1) (BlockHeader_GetHash parent) root (td (h_height parent + 1)) (h_height parent + 1) in
    let file' := match AddHashes toy_hash file (header_leaf h) with Ret f => f | _ => [] end in
    h :: branch n' file' h td
  end.
Definition t_start : cstate := started toy_hash t_genesis.
Definition t_branch : list BlockHeader := Eval vm_compute in branch 130 (committed (s_mmr t_start)) t_genesis (fun i => 1 + 10 * i).
Definition t_main : BlockHeader := Eval vm_compute in t_header 1 (BlockHeader_GetHash t_genesis) (ex_root t_start 0) 1290 200.
Definition t_run es := handle_all toy_hash no_bad AUTOMATED_TESTING ex_keys 10 t_genesis es t_start.
Theorem C17_long_branch_refuted : exists main fork now s,
  (* the headers of the branch are valid: alone, the branch is accepted *)
  (exists s1, t_run [Headers now fork] = Some ([Ret SUCCESS], s1) /\ tip_hash (best s1) = BlockHeader_GetHash (last fork main)) /\
  h_totalDifficulty main < h_totalDifficulty (last fork main) /\
  t_run [Header now main; Headers now fork; Headers now fork] = Some ([Ret SUCCESS; Throw; Throw], s) /\
  best s = [BlockHeader_GetHash t_genesis; BlockHeader_GetHash main].
Proof.
  exists t_main, t_branch, ex_now, (match t_run [Header ex_now t_main; Headers ex_now t_branch; Headers ex_now t_branch] with Some (_, s) => s | None => t_start end).
  split; [|split; [reflexivity|split; vm_compute; reflexivity]].
  exists (match t_run [Headers ex_now t_branch] with Some (_, s) => s | None => t_start end). split; vm_compute; reflexivity.
Qed.

(** One traversal for all theorems of this file. *)
Definition header_theorems := (@C17_best_chain, @C17_most_work, @C17_work_never_decreases, @C17_accepted_header, @C17_stored_headers_have_parents, @C17_stored_headers_validated, @C17_bad_block_refused, @C17_headers_commit_to_chain, @C17_best_chain_linked_partial, @C18_rejected_header_changes_nothing, @C18_rejected_batch_keeps_accepted_prefix, @C18_rejected_short_batch_changes_nothing, @C44_terminates_partial, @C17_batch_linked_refuted, @C17_early_restart_refuted, @C17_orphan_hides_heavier_branch_refuted, @C44_self_linked_header_loops_refuted, @C17_long_branch_refuted).
Print Assumptions header_theorems.
