(** C57: transfer of the output set between nodes. *)
From Verif Require Import Base Bytes FileModel MMRIndexModel MMRHashModel SerialModel CodecModel ConsensusModel CuckooModel CacheModel HeaderModel HeaderSpec UtxoModel BlockModel BlockSpec BlockProofs
  StateModel StateSpec StateProofs.
From Verif Require MMRHashProps HeaderProps BlockProps.
Local Open Scope N_scope.

(** * Receiving *)
(** Of an announced size below 2 GiB: the file is exactly the bytes that follow the announcement, and fewer bytes are noticed. *)
Theorem C57_download_exact turns size stream : size < 2 ^ 31 -> (N.to_nat size <= turns)%nat ->
  download turns size 0 [] stream = Some (Ret (if size <=? nlen stream then Some (firstn (N.to_nat size) stream) else None)).
Proof. intros H L. rewrite download_exact by lia. rewrite N.sub_0_r. reflexivity. Qed.
(** From 2 GiB on it may never end: whatever the peer sends or does not send, the thread goes on and the pipe stays occupied, so that every
    other peer that sends an archive, asked for or not, is banned. *)
Theorem C57_download_ends_refuted : forall turns stream pool Load Validate connection hash (n : node pool) p,
  Thread_ProcessTxHashSet pool Load Validate turns connection (2 ^ 32) hash stream (n, snd (ReceiveTxHashSet connection p)) = None /\
  forall other, let '(started, p') := ReceiveTxHashSet other (snd (ReceiveTxHashSet connection p)) in started = false /\ In other (p_banned p').
Proof.
  intros. split.
  - unfold Thread_ProcessTxHashSet. rewrite download_endless by reflexivity. reflexivity.
  - intros other. unfold ReceiveTxHashSet. destruct (m_processing p) eqn:M; cbn; rewrite ?M; cbn; (split; [reflexivity|apply in_or_app; right; left; reflexivity]).
Qed.

(** * Sending *)
Definition serve find snapshot (reqs : list (Z * bytes)) (l : link) : link := fold_left (fun l r => SendTxHashSet find snapshot (fst r) (snd r) l) reqs l.
Lemma refused find snapshot t now hash l : l_lastRequest l = t -> (now - 7200 < t)%Z ->
  SendTxHashSet find snapshot now hash l = mkLink t true (l_sendingDisabled l) (l_wire l).
Proof. intros <- H. unfold SendTxHashSet. rewrite (proj2 (Z.ltb_lt _ _) H). reflexivity. Qed.
Lemma refused_all find snapshot t reqs l : l_lastRequest l = t -> Forall (fun r => fst r - 7200 < t)%Z reqs ->
  let l' := serve find snapshot reqs l in l_wire l' = l_wire l /\ l_banned l' = (if reqs then l_banned l else true).
Proof.
  intros E F. revert l E. induction F as [|r reqs H F IH]; intros l E; [split; reflexivity|]. cbn [serve fold_left]. rewrite (refused _ _ t) by assumption.
  destruct (IH (mkLink t true (l_sendingDisabled l) (l_wire l)) eq_refl) as (A & B). split; [exact A|]. unfold serve in B. rewrite B. destruct reqs; reflexivity.
Qed.
(** Whatever a peer asks for, and in which order: at most one archive is sent to it within two hours, and it is banned on asking twice. *)
Theorem C57_rate_limit find snapshot from reqs l : Forall (fun r => from <= fst r < from + 7200)%Z reqs ->
  let l' := serve find snapshot reqs l in (archives (l_wire l') <= archives (l_wire l) + 1)%nat /\ ((2 <= length reqs)%nat -> l_banned l' = true).
Proof.
  intros F. destruct F as [|r reqs H F]; [cbn; split; lia|]. cbn [serve fold_left].
  destruct (Z.ltb_spec (fst r - 7200) (l_lastRequest l)) as [C|C].
  - assert (G : forall l0 rs, l_lastRequest l0 = l_lastRequest l -> l_banned l0 = true -> Forall (fun r => from <= fst r < from + 7200)%Z rs ->
      (archives (l_wire (serve find snapshot rs l0)) <= archives (l_wire l0) + 1)%nat /\ l_banned (serve find snapshot rs l0) = true).
    { intros l0 rs _ E0 F0. clear - F0 E0. revert l0 E0. induction F0 as [|r rs H F IH]; intros l0 E0; [cbn; split; [lia|exact E0]|]. cbn [serve fold_left].
      destruct (Z.ltb_spec (fst r - 7200) (l_lastRequest l0)) as [C|C].
      - rewrite (refused _ _ _ _ _ _ eq_refl C). exact (IH (mkLink _ true _ _) eq_refl).
      - assert (L : l_lastRequest (SendTxHashSet find snapshot (fst r) (snd r) l0) = fst r /\ l_banned (SendTxHashSet find snapshot (fst r) (snd r) l0) = l_banned l0 /\
          (archives (l_wire (SendTxHashSet find snapshot (fst r) (snd r) l0)) <= archives (l_wire l0) + 1)%nat).
        { unfold SendTxHashSet. replace (fst r - 7200 <? l_lastRequest l0)%Z with false by (symmetry; apply Z.ltb_ge; lia). destruct (find (snd r)) as [h|]; [destruct (snapshot h) as [f|]|]; cbn; repeat split; try lia.
          rewrite archives_app. cbn [archives]. rewrite archives_map. lia. }
        destruct L as (L1 & L2 & L3). destruct (refused_all find snapshot (fst r) rs _ L1) as (A & B).
        { eapply Forall_impl; [|exact F]. cbn. intros x X. lia. }
        unfold serve in A, B |- *. rewrite A, B. split; [exact L3|]. destruct rs; [rewrite L2; exact E0|reflexivity]. }
    rewrite (refused _ _ _ _ _ _ eq_refl C). destruct (G (mkLink (l_lastRequest l) true (l_sendingDisabled l) (l_wire l)) reqs eq_refl eq_refl F) as (A & B). split; [exact A|]. intros _. exact B.
  - assert (L : l_lastRequest (SendTxHashSet find snapshot (fst r) (snd r) l) = fst r /\ (archives (l_wire (SendTxHashSet find snapshot (fst r) (snd r) l)) <= archives (l_wire l) + 1)%nat).
    { unfold SendTxHashSet. replace (fst r - 7200 <? l_lastRequest l)%Z with false by (symmetry; apply Z.ltb_ge; lia). destruct (find (snd r)) as [h|]; [destruct (snapshot h) as [f|]|]; cbn; repeat split; try lia.
      rewrite archives_app. cbn [archives]. rewrite archives_map. lia. }
    destruct L as (L1 & L3). destruct (refused_all find snapshot (fst r) reqs _ L1) as (A & B).
    { eapply Forall_impl; [|exact F]. cbn. intros x X. lia. }
    unfold serve in A, B |- *. rewrite A. split; [exact L3|]. rewrite B. destruct reqs; [cbn; lia|reflexivity].
Qed.

Lemma whole_chunks n : (n / N.to_nat BUFFER_SIZE * N.to_nat BUFFER_SIZE)%nat = N.to_nat (N.of_nat n - N.of_nat n mod BUFFER_SIZE).
Proof.
  assert (B : BUFFER_SIZE <> 0) by discriminate. generalize dependent BUFFER_SIZE. intros b B.
  assert (E : N.of_nat n - N.of_nat n mod b = N.of_nat n / b * b).
  { pose proof (N.div_mod (N.of_nat n) b B) as D. rewrite D at 1. rewrite N.add_sub. apply N.mul_comm. }
  rewrite E, N2Nat.inj_mul, N2Nat.inj_div, Nat2N.id. reflexivity.
Qed.
(** The file a peer has after asking for an archive, when everything sent arrives. *)
Definition received (file : bytes) : option (outcome (option bytes)) := download (length file) (nlen file) 0 [] (concat (send_chunks (length file) file)).
(** A request that is served: the archive is announced with its true size, and the bytes that follow are a start of the file. *)
Theorem C57_served find snapshot now hash l h file : (l_lastRequest l <= now - 7200)%Z -> find hash = Some h -> snapshot h = Some file ->
  let l' := SendTxHashSet find snapshot now hash l in
  exists sent, l_wire l' = l_wire l ++ WArchive (BlockHeader_GetHash h) (h_height h) (nlen file) :: map WBytes sent /\
    concat sent = firstn (N.to_nat (nlen file - nlen file mod BUFFER_SIZE)) file /\ l_sendingDisabled l' = false /\ l_banned l' = l_banned l.
Proof.
  intros H F S0. unfold SendTxHashSet. rewrite (proj2 (Z.ltb_ge _ _) H), F, S0. cbn. exists (send_chunks (length file) file).
  split; [reflexivity|]. split; [|split; reflexivity]. rewrite (chunks_prefix (N.to_nat BUFFER_SIZE)) by (try reflexivity; unfold BUFFER_SIZE; lia). rewrite whole_chunks. reflexivity.
Qed.
Lemma received_all file : nlen file < 2 ^ 31 -> received file = Some (Ret (if nlen file mod BUFFER_SIZE =? 0 then Some file else None)).
Proof.
  intros H. unfold received. rewrite C57_download_exact; [|exact H|unfold nlen; lia].
  rewrite (chunks_prefix (N.to_nat BUFFER_SIZE)) by (try reflexivity; unfold BUFFER_SIZE; lia).
  rewrite whole_chunks. fold (nlen file). assert (Hm : nlen file mod BUFFER_SIZE <= nlen file) by (apply N.mod_le; discriminate). unfold nlen at 2. rewrite firstn_length.
  destruct (N.eqb_spec (nlen file mod BUFFER_SIZE) 0) as [Z0|Nz].
  - rewrite Z0, N.sub_0_r. unfold nlen. rewrite Nat2N.id, Nat.min_id, N.leb_refl, firstn_all. rewrite firstn_all. reflexivity.
  - replace (nlen file <=? _) with false; [reflexivity|]. symmetry. apply N.leb_gt. unfold nlen in *. lia.
Qed.
(** An archive arrives if its size is a multiple of 128 KiB. *)
Theorem C57_transfer_partial file : nlen file < 2 ^ 31 -> (BUFFER_SIZE | nlen file) -> received file = Some (Ret (Some file)).
Proof. intros H D. rewrite received_all by exact H. apply N.mod_divide in D; [|discriminate]. rewrite D. reflexivity. Qed.
(** No other archive ever arrives: the rest of the file after the last full 128 KiB is not sent. *)
Theorem C57_transfer_refuted : (forall file, nlen file < 2 ^ 31 -> ~ (BUFFER_SIZE | nlen file) -> received file = Some (Ret None)) /\
  exists file, file <> [] /\ nlen file < 2 ^ 31 /\ ~ (BUFFER_SIZE | nlen file) /\ concat (send_chunks (length file) file) = [].
Proof.
  split.
  - intros file H D. rewrite received_all by exact H. destruct (N.eqb_spec (nlen file mod BUFFER_SIZE) 0) as [Z0|_]; [|reflexivity].
    exfalso. apply D. apply N.mod_divide; [discriminate|exact Z0].
  - exists [80; 75; 5; 6]. split; [discriminate|]. split; [reflexivity|]. split; [|reflexivity]. intros D. apply N.mod_divide in D; discriminate.
Qed.
(** After a request for a block the node does not know, nothing is sent to this peer any more. *)
Theorem C57_mute_refuted : forall find snapshot now hash l, (l_lastRequest l <= now - 7200)%Z -> find hash = None ->
  forall ms, l_wire (fold_left (fun l m => SendAsync m l) ms (SendTxHashSet find snapshot now hash l)) = l_wire l.
Proof.
  intros find snapshot now hash l H F ms. unfold SendTxHashSet. rewrite (proj2 (Z.ltb_ge _ _) H), F. cbn.
  induction ms as [|m ms IH]; [reflexivity|exact IH].
Qed.

(** * Taking over *)
Section Process.
Variable pool : Type.
Variable Load : bytes -> BlockHeader -> option txhashset.
Variable Validate : txhashset -> BlockHeader -> outcome (option BlockSums).
Notation process := (ProcessTransactionHashSet pool Load Validate).
Notation candidate n := (now_ (s_candidate (n_chain n))).

(** An archive is taken over only if its block is on the best header chain and the set is valid for the header; then the set and the sums
    are stored. If no confirmed block after this one is on the best header chain, the confirmed chain ends with this block. *)
Theorem C57_adopted_partial hash zip n n' : process hash zip n = (Some (Ret true), n') ->
  exists h s sums, tget (d_headers (view n)) hash = Some h /\ Load zip h = Some s /\ Validate s h = Ret (Some sums) /\
    nth_error (candidate n) (N.to_nat (h_height h)) = Some (BlockHeader_GetHash h) /\
    n_set n' = mkVer (Some s) (Some s) /\ tget (d_sums (committed (n_db n'))) (BlockHeader_GetHash h) = Some sums /\
    committed (s_confirmed (n_chain n')) = confirmed_now n' /\
    (nth 0 (candidate n) [] = nth 0 (confirmed_now n) [] -> confirmed_now n <> [] -> same_past (candidate n) (confirmed_now n) ->
     exists c, last_common (candidate n) (confirmed_now n) c /\
       ((c <= N.to_nat (h_height h))%nat -> confirmed_now n' = firstn (S (N.to_nat (h_height h))) (candidate n) /\ last (confirmed_now n') [] = BlockHeader_GetHash h) /\
       ((N.to_nat (h_height h) < c)%nat -> confirmed_now n' = firstn (S c) (confirmed_now n))).
Proof.
  intros E. destruct (adopted pool Load Validate _ _ _ _ E) as (h & s & sums & A1 & A2 & A3 & A4 & A5 & A6 & A7 & A8). exists h, s, sums.
  repeat (split; [assumption|]). intros E0 Ne Sp. cbn zeta in A8.
  set (a := candidate n) in *. set (b := confirmed_now n) in *. set (k := (Nat.min (length a) (length b) - 1)%nat) in *.
  assert (La : (N.to_nat (h_height h) < length a)%nat) by (apply nth_error_Some; rewrite A4; discriminate).
  assert (Lb : (0 < length b)%nat) by (destruct b; [congruence|cbn; lia]).
  assert (Lc : last_common a b (common a b k)) by (apply common_last; [exact E0|lia|lia|intros j J1 J2 J3; lia]).
  exists (common a b k). split; [exact Lc|]. destruct Lc as (C1 & C2 & C3 & _). set (c := common a b k) in *.
  pose proof (Sp c C1 C2 C3) as P. split.
  - intros Hc. assert (E1 : confirmed_now n' = firstn (S (N.to_nat (h_height h))) a).
    { rewrite A8, <- P. rewrite <- (firstn_skipn (S c) (firstn (S (N.to_nat (h_height h))) a)) at 2. rewrite firstn_firstn, Nat.min_l by lia. reflexivity. }
    split; [exact E1|]. rewrite E1. clear - A4 La.
    revert A4 La. generalize (N.to_nat (h_height h)). generalize (BlockHeader_GetHash h). induction a as [|x a IH]; intros y i A L; [cbn in L; lia|].
    destruct i as [|i]; [cbn in A |- *; congruence|]. cbn in A. specialize (IH y i A ltac:(cbn in L; lia)). cbn [firstn]. cbn [firstn] in IH. destruct a as [|x1 a]; [cbn in L; lia|]. cbn [last]. exact IH.
  - intros Hc. rewrite A8. rewrite skipn_all2; [apply app_nil_r|]. rewrite firstn_length. lia.
Qed.
(** Every output of the set taken over is found under its commitment afterwards, at its place and with the height of the block that created it
    (for commitments that occur once among the outputs of the set). *)
Theorem C57_positions hash zip n n' : process hash zip n = (Some (Ret true), n') ->
  exists s, now_ (n_set n') = Some s /\ forall i o h,
    Output_GetAt s (LeafIndex_At i) = Ret (Some o) ->
    (forall j o', Output_GetAt s (LeafIndex_At j) = Ret (Some o') -> oi_commitment o' = oi_commitment o -> j = i) ->
    block_of_leaf (d_headers (view n)) i (firstn (S (N.to_nat (h_height (m_pBlockHeader s)))) (candidate n)) = Some h ->
    tget (d_positions (committed (n_db n'))) (oi_commitment o) = Some (mkLoc (LeafIndex_At i) (h_height h)).
Proof.
  intros E. destruct (adopted_db pool Load Validate _ _ _ _ E) as (h & s & sums & _ & _ & A & Sp). exists s. split; [exact A|]. intros i o hb G U B.
  rewrite (save_positions_get _ _ _ _ _ _ _ _ Sp G U), B. destruct (N.leb_spec 0 i); [reflexivity|lia].
Qed.
(** A block whose header is not on the best header chain, or an unknown one, is never taken over. *)
Corollary C57_only_best_chain hash zip n n' h : tget (d_headers (view n)) hash = Some h ->
  nth_error (candidate n) (N.to_nat (h_height h)) <> Some (BlockHeader_GetHash h) -> process hash zip n <> (Some (Ret true), n').
Proof. intros H Hn E. destruct (C57_adopted_partial _ _ _ _ E) as (h' & s & sums & A1 & _ & _ & A4 & _). assert (h' = h) by congruence. subst h'. exact (Hn A4). Qed.
Corollary C57_unknown_block hash zip n : tget (d_headers (view n)) hash = None -> process hash zip n = (Some (Ret false), n).
Proof. intros H. unfold ProcessTransactionHashSet, ProcessTxHashSet. rewrite H. reflexivity. Qed.

(** An archive that fails to load or to validate, asked for or not: the node has no output set any more. *)
Theorem C57_bad_archive_refuted turns connection size hash stream n p h file :
  download turns size 0 [] stream = Some (Ret (Some file)) -> tget (d_headers (view n)) hash = Some h -> Load file h = None ->
  exists n' p', Thread_ProcessTxHashSet pool Load Validate turns connection size hash stream (n, p) = Some (Ret (n', p')) /\
    n_set n' = mkVer None None /\ n_chain n' = n_chain n /\ n_db n' = n_db n /\ p_status p' = TXHASHSET_SYNC_FAILED /\ In connection (p_banned p').
Proof.
  intros D H L. unfold Thread_ProcessTxHashSet. rewrite D, (failed_closed _ _ _ _ _ _ _ H L). do 2 eexists. split; [reflexivity|].
  repeat (split; [reflexivity|]). cbn. apply in_or_app. right. left. reflexivity.
Qed.
(** Without an output set, no block is accepted: not now, and not after any number of further blocks. *)
Theorem C57_no_set_no_block ReconcileBlock Blake2b BAD_BLOCKS env pow_keys verify sums fuel now b (n : node pool) : n_set n = mkVer None None ->
  let '(r, n') := ProcessBlock pool ReconcileBlock Blake2b BAD_BLOCKS env pow_keys verify sums fuel now b n in r <> Some (Ret SUCCESS) /\ n_set n' = mkVer None None.
Proof.
  intros H. unfold ProcessBlock, ProcessBlockInternal, in_batch, bbind, bget, blift, bput, bret, bthrow.
  destruct (_ <=? _); [split; [discriminate|exact H]|].
  destruct (ProcessSingleHeader _ _ _ _ _ _ _ _) as [[r c]|]; [|split; [discriminate|exact H]].
  destruct r as [x| |]; try (split; [discriminate|exact H]).
  destruct (verify b) as [[]| |]; try (split; [discriminate|exact H]).
  set (m := set_chain n c). assert (Hm : n_set m = mkVer None None) by exact H. clearbody m. clear H n c.
  destruct (on_chain _ _ _); [split; [discriminate|cbn; rewrite Hm; reflexivity]|].
  destruct (tget (d_blocks (view m)) _); [split; [discriminate|cbn; rewrite Hm; reflexivity]|].
  destruct (DetermineBlockStatus _ _ _) as [[| |blocks]|]; [| | |split; [discriminate|cbn; rewrite Hm; reflexivity]].
  - destruct (IsOrphan _ _ _); [split; [discriminate|cbn; rewrite Hm; reflexivity]|].
    unfold AddOrphanBlock, bbind, bget, bput, bret, bthrow, blift. destruct (Cached _ _ _); [|destruct (Put _ _ _ _ _)]; cbn; repeat (match goal with |- context [if ?x then _ else _] => destruct x end; cbn); (split; [discriminate|rewrite Hm; reflexivity]).
  - unfold ValidateAndAddBlock, bbind, bget, bthrow. rewrite Hm. cbn [now_]. destruct (tget _ _); cbn; (split; [discriminate|rewrite Hm; reflexivity]).
  - unfold HandleReorg, bbind, bget, bthrow. rewrite Hm. cbn. split; [discriminate|rewrite Hm; reflexivity].
Qed.
End Process.

(** * Examples *)
Import BlockProps.
Definition get_set (n : node unit) : option txhashset := now_ (n_set n).
(** The node has confirmed [b1] and [b2], and knows the header of [b3]. *)
Definition two : node unit := Eval vm_compute in after [blk b1; blk b2; EHeader HeaderProps.ex_now (fb_header b3)].
Definition set1 : option txhashset := Eval vm_compute in get_set (after [blk b1]).
Definition set2 : option txhashset := Eval vm_compute in get_set (after [blk b1; blk b2]).
(** Archives that hold the sets after [b1] and after [b2]. *)
Definition load12 (zip : bytes) (_ : BlockHeader) : option txhashset := if bytes_eqb zip [1] then set1 else if bytes_eqb zip [2] then set2 else None.
Definition valid (s : txhashset) (h : BlockHeader) : outcome (option BlockSums) :=
  if bytes_eqb (BlockHeader_GetHash (m_pBlockHeader s)) (BlockHeader_GetHash h) then Ret (Some ex_sums0) else Ret None.
Definition take := ProcessTransactionHashSet unit load12 valid.
Definition internal := ProcessBlockInternal unit no_pool MMRHashProps.toy_hash MAINNET ex_verify ex_sums 10.
(** An archive for the last block is taken over, and the next block is accepted after it. *)
Example C57_example : exists n', take (id_ 2) [2] two = (Some (Ret true), n') /\ confirmed_now n' = [id_ 0; id_ 1; id_ 2] /\ n_set n' = mkVer set2 set2 /\ fst (internal b3 n') = Some (Ret SUCCESS).
Proof. eexists. split; [vm_compute; reflexivity|]. split; [reflexivity|]. split; [reflexivity|]. vm_compute. reflexivity. Qed.
(** Of the set after [b2], whose second output is spent, the third output was created by the block of height 1: the hypotheses of [C57_positions] hold for it. *)
Lemma set2_leaves s j o : set2 = Some s -> Output_GetAt s (LeafIndex_At j) = Ret (Some o) -> j < 8.
Proof.
  intros E G. destruct (N.lt_ge_cases j 8) as [L|L]; [exact L|exfalso]. unfold set2 in E. injection E as <-.
  unfold Output_GetAt, PMMR_GetAt, PMMR_IsUnpruned, BitmapModel.IsSet in G. change (lidx_leaf (LeafIndex_At j)) with j in G.
  assert (Z : 1 <= j / 8) by (apply N.div_le_lower_bound; lia).
  match type of G with context [BitmapModel.GetByte ?b (j / 8)] => assert (B : BitmapModel.GetByte b (j / 8) = 0) end.
  { destruct (j / 8) as [|p]; [lia|]. reflexivity. }
  rewrite B in G. cbn [N.land N.eqb negb] in G. rewrite Bool.andb_false_r in G. discriminate.
Qed.
Example C57_positions_example : exists n' s o h, take (id_ 2) [2] two = (Some (Ret true), n') /\ now_ (n_set n') = Some s /\
  Output_GetAt s (LeafIndex_At 1) = Ret None /\ Output_GetAt s (LeafIndex_At 2) = Ret (Some o) /\
  (forall j o', Output_GetAt s (LeafIndex_At j) = Ret (Some o') -> oi_commitment o' = oi_commitment o -> j = 2) /\
  block_of_leaf (d_headers (view two)) 2 (firstn (S (N.to_nat (h_height (m_pBlockHeader s)))) (now_ (s_candidate (n_chain two)))) = Some h /\
  tget (d_positions (committed (n_db n'))) (oi_commitment o) = Some (mkLoc (LeafIndex_At 2) 1).
Proof.
  destruct set2 as [s|] eqn:E; [|discriminate]. 
  assert (T : fst (take (id_ 2) [2] two) = Some (Ret true)) by (vm_compute; reflexivity).
  assert (T2 : now_ (n_set (snd (take (id_ 2) [2] two))) = set2) by (vm_compute; reflexivity).
  eexists (snd (take (id_ 2) [2] two)), s. do 2 eexists. split; [rewrite <- T; apply surjective_pairing|]. split; [rewrite T2; exact E|].
  pose proof E as E'. unfold set2 in E'. injection E' as E'.
  split; [rewrite <- E'; vm_compute; reflexivity|]. split; [rewrite <- E'; vm_compute; reflexivity|].
  split.
  { intros j o' G Q. pose proof (set2_leaves s j o' E G) as L.
    assert (C : j = 0 \/ j = 1 \/ j = 2 \/ j = 3 \/ j = 4 \/ j = 5 \/ j = 6 \/ j = 7) by lia. rewrite <- E' in G. clear - G Q C.
    destruct C as [->|[->|[->|[->|[->|[->|[->| ->]]]]]]]; [|vm_compute in G; discriminate| reflexivity | |vm_compute in G; discriminate..].
    all: vm_compute in G; injection G as <-; vm_compute in Q; discriminate. }
  split; [rewrite <- E'; vm_compute; reflexivity|]. vm_compute. reflexivity.
Qed.
(** A valid archive for an earlier block, which any peer may send at any time: it is taken over, but the confirmed chain stays where it is.
    The output set is now that of another block than the last one. The valid next block, accepted before, is not accepted: its roots are now looked for
    beyond the end of the files of hashes, which is undefined behaviour. *)
Theorem C57_old_state_refuted : exists n', take (id_ 1) [1] two = (Some (Ret true), n') /\ confirmed_now n' = [id_ 0; id_ 1; id_ 2] /\
  option_map (fun s => BlockHeader_GetHash (m_pBlockHeader s)) (now_ (n_set n')) = Some (id_ 1) /\
  fst (internal b3 two) = Some (Ret SUCCESS) /\ fst (internal b3 n') = Some Fault.
Proof. eexists. split; [vm_compute; reflexivity|]. split; [reflexivity|]. split; [vm_compute; reflexivity|]. split; vm_compute; reflexivity. Qed.
(** One byte that is no archive, sent by any peer to a node that is not syncing. *)
Example C57_bad_archive_example : exists n' p', Thread_ProcessTxHashSet unit load12 valid 1 7 1 (id_ 2) [0] (two, snd (ReceiveTxHashSet 7 (mkPipe false NOT_SYNCING []))) = Some (Ret (n', p')) /\
  n_set n' = mkVer None None /\ p_status p' = TXHASHSET_SYNC_FAILED /\ m_processing p' = false /\ p_banned p' = [7].
Proof. do 2 eexists. split; [vm_compute; reflexivity|]. repeat split. Qed.
Example C57_rate_example (h : BlockHeader) : let l := serve (fun _ => Some h) (fun _ => Some [1; 2; 3]) [(10000%Z, [1]); (17200%Z, [1]); (17201%Z, [1])] (mkLink 0 false false []) in
  archives (l_wire l) = 2%nat /\ l_banned l = true /\ l_lastRequest l = 17200%Z.
Proof. repeat split. Qed.

Definition state_theorems := (C57_download_exact, C57_download_ends_refuted, @C57_rate_limit, @C57_served, C57_transfer_partial, C57_transfer_refuted, @C57_mute_refuted,
  @C57_adopted_partial, @C57_positions, C57_positions_example, @C57_only_best_chain, @C57_unknown_block, @C57_bad_archive_refuted, @C57_no_set_no_block, C57_example, C57_old_state_refuted, C57_bad_archive_example, C57_rate_example).
Print Assumptions state_theorems.
