(** C18 for blocks, C48, C49: block processing. *)
From Coq Require Import Permutation.
From Verif Require Import Base Bytes MMRIndexModel MMRHashModel CodecModel ConsensusModel CuckooModel CacheModel HeaderModel HeaderSpec HeaderProofs HeaderInv
  ValidationModel ValidationSpec ValidationProofs ValidationProps UtxoModel UtxoSpec UtxoProofs UtxoRewind UtxoRoots DifficultyModel BlockModel BlockSpec BlockHeaders BlockProofs
  BlockNode BlockFinal.
From Verif Require MMRHashProps DifficultyProps HeaderProps.
Local Open Scope N_scope.

Section Props.
Variable pool : Type.
Variable empty_pool : pool.
Variable ReconcileBlock : blockdb -> txhashset -> BlockHeader -> FullBlock -> pool -> outcome unit * pool.
Variable Blake2b : bytes -> bytes.
Variable BAD_BLOCKS : bytes -> bool.
Variable env : Environment.
Variable pow_keys : BlockHeader -> sip.
Variable verify : FullBlock -> outcome unit.
Variable sums : BlockSums -> FullBlock -> outcome BlockSums.
Variable genesis : FullBlock.
Variable genesis_sums : BlockSums.
Notation base := (fb_header genesis).
Notation run := (bhandle_all pool empty_pool ReconcileBlock Blake2b BAD_BLOCKS env pow_keys verify sums).
Notation handle := (bhandle pool empty_pool ReconcileBlock Blake2b BAD_BLOCKS env pow_keys verify sums).
Notation start := (first_start pool empty_pool Blake2b genesis genesis_sums).
Notation process := (ProcessBlock pool ReconcileBlock Blake2b BAD_BLOCKS env pow_keys verify sums).
Notation process_internal := (ProcessBlockInternal pool ReconcileBlock Blake2b env verify sums).

(** * C18: a block that is not accepted changes no store, in any state of the node between two calls. (Even if the loop that looks for
    the fork does not end: [r = None].) *)
Theorem C18_rejected_block_changes_nothing fuel b n r n' :
  idle n -> process_internal fuel b n = (r, n') -> r <> Some (Ret SUCCESS) -> same_node n n'.
Proof. exact (internal_fail pool ReconcileBlock Blake2b env verify sums fuel b n r n'). Qed.
(** With the header: the stores are then those before the call, or those the header alone leads to. *)
Theorem C18_rejected_block_leaves_header_only fuel now b n r n' :
  idle n -> process fuel now b n = (r, n') -> r <> Some (Ret SUCCESS) ->
  same_node n n' \/
  exists hr c, ProcessSingleHeader Blake2b BAD_BLOCKS env pow_keys fuel now (fb_header b) (n_chain n) = Some (hr, c) /\
    same_node (set_chain n c) n'.
Proof.
  intros I E Nr. assert (Stay : same_node n n) by (split; [apply same_stores_refl|split; reflexivity]).
  unfold ProcessBlock in E. unfold bbind at 1, bget at 1 in E. destruct (_ <=? _); [injection E as <- <-; left; exact Stay|]. unfold bbind at 1 in E.
  destruct (ProcessSingleHeader _ _ _ _ _ _ _ _) as [(hr, c)|] eqn:Eh; [|injection E as <- <-; left; exact Stay]. right. exists hr, c. split; [reflexivity|].
  pose proof (single_quiet _ _ _ _ _ _ _ _ _ _ (proj1 I) Eh) as Qc.
  assert (Stay' : same_node (set_chain n c) (set_chain n c)) by (split; [apply same_stores_refl|split; reflexivity]).
  destruct hr as [x| |]; try (injection E as <- <-; exact Stay'). unfold bbind at 1, blift at 1 in E.
  destruct (verify b) as [y| |]; try (injection E as <- <-; exact Stay').
  refine (internal_fail pool ReconcileBlock Blake2b env verify sums fuel b (set_chain n c) r n' _ E Nr). split; [exact Qc|]. exact (proj2 I).
Qed.

(** * C48: the state of a running node *)
Lemma reached fuel es n0 rs n HS BS : genesis_ok genesis -> no_collision HS -> (forall h, In h HS -> small h) -> (forall b, In b BS -> well_formed b) ->
  true_sizes genesis BS -> In base HS -> (forall b, In b BS -> In (fb_header b) HS) ->
  incl (flat_map event_headers es) HS -> incl (flat_map event_blocks es) BS ->
  start = Ret n0 -> run fuel genesis genesis_sums es n0 = Some (rs, n) ->
  exists chain s l, NI pool Blake2b env verify sums genesis genesis_sums HS BS n chain s l.
Proof.
  intros G U Sm W Z Gi Bi Ih Ib E0 E.
  destruct (first_ok pool empty_pool Blake2b env verify sums genesis genesis_sums HS BS Gi G n0 E0) as (s0 & I0).
  exact (handle_all_ok pool empty_pool ReconcileBlock Blake2b BAD_BLOCKS env pow_keys verify sums genesis genesis_sums HS BS Sm U Gi G Bi W Z
    fuel es n0 [] s0 _ rs n I0 Ih Ib E).
Qed.
Lemma blocks_headers es b : In b (all_blocks es) -> In (fb_header b) (all_headers genesis es).
Proof.
  intros J. right. unfold all_blocks in J. apply in_flat_map in J as (e & Je & Jb). apply in_flat_map. exists e. split; [exact Je|].
  destruct e; cbn in *; intuition (subst; auto).
Qed.
Lemma smalls es : Forall (fun h => h_height h < 2 ^ 62) (all_headers genesis es) -> forall h, In h (all_headers genesis es) -> small h.
Proof. intros F h J. rewrite Forall_forall in F. apply F in J. exact J. Qed.

(** After any sequence of headers, header batches, blocks, orphan retries and restarts: no call is half done; the confirmed chain is the
    genesis block followed by delivered blocks, each naming the one before it, all stored; the output set and the index hold exactly the
    coins and kernels these blocks lead to; each block passed its own check and the check of its sums, and the sums stored for
    the tip are the result; the roots of the tip's header are those of the output set. *)
Theorem C48_node_follows_its_chain fuel es n0 rs n :
  proper_run genesis es -> start = Ret n0 -> run fuel genesis genesis_sums es n0 = Some (rs, n) ->
  idle n /\ exists chain s l total,
    confirmed n = map BlockHeader_GetHash (base :: map fb_header chain) /\ chained base chain /\ incl chain (all_blocks es) /\
    Forall (fun b => tget (d_blocks (committed (n_db n))) (BlockHeader_GetHash (fb_header b)) = Some b) chain /\
    committed (n_set n) = Some s /\ m_pBlockHeader s = tip base chain /\
    chain_ledger env 1 (genesis_ledger genesis) chain l /\ represents Blake2b 1 l s (committed (n_db n)) /\
    chain_sums verify sums genesis_sums chain = Ret total /\ tget (d_sums (committed (n_db n))) (BlockHeader_GetHash (tip base chain)) = Some total /\
    (chain <> [] -> ValidateRoots Blake2b s (tip base chain) = Ret true).
Proof.
  intros (G & U & Sm & W & Z) E0 E. pose proof (smalls es Sm) as Sm'. rewrite Forall_forall in W.
  destruct (reached fuel es n0 rs n (all_headers genesis es) (all_blocks es) G U Sm' W Z (or_introl eq_refl) (blocks_headers es)
    (fun x J => or_intror J) (fun x J => J) E0 E) as (chain & s & l & I).
  split; [exact (ni_idle _ _ _ _ _ _ _ _ _ _ _ _ _ I)|].
  destruct I as [Hh Db S1 S2 Cf Gd Rt Bl Or]. destruct Gd as [(Ch & Rp & ND & Hd & _) Chd Inc Sms].
  destruct (Sms chain [] (eq_sym (app_nil_r chain))) as (total & T1 & T2).
  exists chain, s, l, total. split; [unfold confirmed; rewrite Cf; apply hashes_map|]. split; [exact Chd|]. split; [exact Inc|]. split.
  { apply Forall_forall. intros b J. rewrite <- Db. change (d_blocks (now_ (n_db n))) with (d_blocks (view n)).
    assert (St : forall d chain l, chain_ok env 1 base (genesis_ledger genesis) d chain l -> forall c, In c chain -> tget (d_blocks d) (hash_of c) = Some c).
    { induction 1; intros y Jy; [destruct Jy|]. apply in_app_or in Jy as [Jy|[<-|[]]]; auto. }
    exact (St _ _ _ Ch b J). }
  split; [exact S2|]. split; [exact Hd|]. split; [exact (chain_ok_ledger _ _ _ _ _ _ _ Ch)|]. split.
  { rewrite <- Db. destruct Rp as [R1 R2 R3 R4 R5 R6 R7 R8 R9]. constructor; assumption. }
  split; [exact T1|]. split; [rewrite <- Db; exact T2|exact Rt].
Qed.

(** One more event: the confirmed chain stays, is continued by one block, or is replaced by one with strictly more total work. *)
Theorem C48_chain_only_improves fuel es e n0 rs n r n' :
  proper_run genesis (es ++ [e]) -> start = Ret n0 -> run fuel genesis genesis_sums es n0 = Some (rs, n) -> handle fuel genesis genesis_sums e n = (r, n') ->
  exists chain chain',
    confirmed n = map BlockHeader_GetHash (base :: map fb_header chain) /\ confirmed n' = map BlockHeader_GetHash (base :: map fb_header chain') /\
    incl chain' (all_blocks (es ++ [e])) /\ improves genesis chain chain'.
Proof.
  intros (G & U & Sm & W & Z) E0 E Eh. pose proof (smalls _ Sm) as Sm'. rewrite Forall_forall in W.
  set (HS := all_headers genesis (es ++ [e])) in *. set (BS := all_blocks (es ++ [e])) in *.
  assert (A1 : incl (flat_map event_headers es) HS) by (intros x J; right; rewrite flat_map_app; apply in_or_app; left; exact J).
  assert (A2 : incl (flat_map event_blocks es) BS) by (intros x J; unfold BS, all_blocks; rewrite flat_map_app; apply in_or_app; left; exact J).
  assert (A3 : incl (event_headers e) HS) by (intros x J; right; rewrite flat_map_app; apply in_or_app; right; cbn; rewrite app_nil_r; exact J).
  assert (A4 : incl (event_blocks e) BS) by (intros x J; unfold BS, all_blocks; rewrite flat_map_app; apply in_or_app; right; cbn; rewrite app_nil_r; exact J).
  destruct (reached fuel es n0 rs n HS BS G U Sm' W Z (or_introl eq_refl) (blocks_headers _) A1 A2 E0 E) as (chain & s & l & I).
  destruct (handle_ok pool empty_pool ReconcileBlock Blake2b BAD_BLOCKS env pow_keys verify sums genesis genesis_sums HS BS Sm' U (or_introl eq_refl) G
    (blocks_headers _) W Z fuel e n chain s l r n' I A3 A4 Eh) as (chain' & s' & l' & I' & C).
  exists chain, chain'. split; [unfold confirmed; rewrite (ni_conf _ _ _ _ _ _ _ _ _ _ _ _ _ I); apply hashes_map|].
  split; [unfold confirmed; rewrite (ni_conf _ _ _ _ _ _ _ _ _ _ _ _ _ I'); apply hashes_map|].
  split; [exact (g_in _ _ _ _ _ _ _ _ _ _ _ (ni_good _ _ _ _ _ _ _ _ _ _ _ _ _ I'))|].
  destruct C as [->|(b & Jb & M)]; [left; reflexivity|]. destruct M as [->| ->|pre undone bs -> -> D]; [left; reflexivity|right; left; eauto|].
  right. right. rewrite app_assoc. rewrite tip_snoc. exact D.
Qed.

(** * C49: which blocks are asked for: those of the best header chain above the last block it has in common with the confirmed chain,
    in order, except the ones whose hash is in the orphan pool. *)
Theorem C49_needed_blocks max (n : node pool) :
  let a := now_ (s_candidate (n_chain n)) in let b := now_ (s_confirmed (n_chain n)) in
  (0 < max)%nat -> nth 0 a [] = nth 0 b [] ->
  exists k, nth k a [] = nth k b [] /\ (forall j, (k < j)%nat -> (j < length a)%nat -> (j < length b)%nat -> nth j a [] <> nth j b []) /\
    GetBlocksNeeded pool max n =
    firstn max (filter (fun x => negb (existsb (fun o => (h_height (fb_header o) =? fst x) && bytes_eqb (BlockHeader_GetHash (fb_header o)) (snd x)) (n_orphans n)))
      (combine (map (fun i => N.of_nat (S k) + N.of_nat i) (seq 0 (length (skipn (S k) a)))) (skipn (S k) a))).
Proof.
  intros a b Hm H0. set (top := (Nat.min (length a) (length b) - 1)%nat).
  destruct (common_spec a b top) as (A & B & C); [exists 0%nat; split; [lia|exact H0]|].
  exists (common a b top). split; [exact A|]. split; [intros j J1 J2 J3; apply C; split; [exact J1|unfold top; lia]|].
  unfold GetBlocksNeeded. cbv zeta. fold a. change (confirmed_now n) with b. fold top. rewrite needed_exact by exact Hm. reflexivity.
Qed.
End Props.

(** * The supply. With the validators and the sums of the code, the unspent coins of a running node are worth one reward per block of
    its confirmed chain, genesis block included, whatever values its outputs were made with (unless the commitment scheme is broken). *)
Lemma accept_chain Blake2b VRP VKS AddC CT CB env : forall chain s,
  chain_sums (VerifySelfConsistent Blake2b VRP VKS AddC CT env) (ValidateBlockSums AddC CT CB) s chain = accept_blocks Blake2b VRP VKS AddC CT CB env s chain.
Proof. induction chain as [|b chain IH]; intros s; [reflexivity|]. cbn [chain_sums accept_blocks]. destruct (VerifySelfConsistent _ _ _ _ _ _ b); [|reflexivity|reflexivity]. cbn [obind]. destruct (ValidateBlockSums _ _ _ s b); [|reflexivity|reflexivity]. apply IH. Qed.
Theorem C48_supply opens AddC CT CB VRP VKS pool empty_pool ReconcileBlock Blake2b BAD_BLOCKS env pow_keys genesis genesis_sums genesis_output genesis_kernel value fuel es n0 rs n :
  sound_crypto opens AddC CT CB VRP VKS ->
  b_outputs (fb_body genesis) = [genesis_output] -> b_kernels (fb_body genesis) = [genesis_kernel] ->
  GenesisSums AddC CT (o_commitment genesis_output) (k_excessCommitment genesis_kernel) = Ret genesis_sums ->
  value (o_commitment genesis_output) = block_reward -> (exists x, opens (k_excessCommitment genesis_kernel) 0%Z x) ->
  proper_run genesis es -> Forall (fun b => countable (fb_body b)) (all_blocks es) ->
  values opens value (o_commitment genesis_output :: flat_map (fun b => output_commitments (fb_body b)) (all_blocks es)) ->
  first_start pool empty_pool Blake2b genesis genesis_sums = Ret n0 ->
  bhandle_all pool empty_pool ReconcileBlock Blake2b BAD_BLOCKS env pow_keys (VerifySelfConsistent Blake2b VRP VKS AddC CT env) (ValidateBlockSums AddC CT CB)
    fuel genesis genesis_sums es n0 = Some (rs, n) ->
  exists s l, committed (n_set n) = Some s /\ represents Blake2b 1 l s (committed (n_db n)) /\
    (total value (map c_commitment (unspent l)) = (block_reward * zlen (confirmed n))%Z \/ binding_broken opens).
Proof.
  intros Sc Go Gk Gs Gv Gx P Cn V E0 E.
  destruct (C48_node_follows_its_chain _ _ _ _ _ _ _ _ _ _ _ _ _ _ _ _ P E0 E) as (_ & chain & s & l & final & Cf & Chd & Inc & _ & Es & _ & L & R & Sm & _).
  exists s, l. split; [exact Es|]. split; [exact R|]. rewrite accept_chain in Sm.
  assert (Z : zlen (confirmed n) = (1 + zlen chain)%Z). { rewrite Cf. unfold zlen. cbn [map length]. rewrite !map_length. lia. } rewrite Z.
  apply (C21_total_value opens AddC CT CB VRP VKS Blake2b env value (o_commitment genesis_output) (k_excessCommitment genesis_kernel) genesis_sums chain final); try assumption.
  - apply Forall_forall. intros b J. rewrite Forall_forall in Cn. apply Cn, Inc, J.
  - intros c [<-|J]; apply V; [left; reflexivity|right]. apply in_flat_map in J as (b & Jb & Jc). apply in_flat_map. exists b. split; [apply Inc, Jb|exact Jc].
  - pose proof (ledger_perm _ _ _ _ _ L) as Pm. unfold unspent at 1, genesis_ledger in Pm. rewrite Go in Pm. exact Pm.
Qed.

(** * A toy network (see HeaderProps.v): every header carries the same Cuckatoo cycle; every body is taken as consistent, and sums are not
    computed. *)
Definition out_ (n : N) : TransactionOutput := mkOutput 0 (repeat n 33) [n].
Definition kernel_ (n : N) : TransactionKernel := mkKernel 0 (mkFee 0 n) 0 (repeat n 33) (repeat n 64).
Definition body_ (i o : list N) (k : N) : TransactionBody := mkBody (map (fun n => mkInput 0 (repeat n 33)) i) (map out_ o) [kernel_ k].
Definition id_ (a : N) : bytes := HeaderProps.ex_hash a.
Definition ex_genesis : FullBlock :=
  mkBlock (mkHeader 1 0 1700000000 (repeat 9 32) [] [] [] [] [] 1 1 1000 1856 0 (mkPoW 24 (map (N.add 1) DifficultyProps.small_nonces) (id_ 0))) (body_ [] [100] 0).
Definition ex_verify (_ : FullBlock) : outcome unit := Ret tt.
Definition ex_sums0 : BlockSums := mkSums [] [].
Definition ex_sums (s : BlockSums) (_ : FullBlock) : outcome BlockSums := Ret s.
Definition no_pool (_ : blockdb) (_ : txhashset) (_ : BlockHeader) (_ : FullBlock) (p : unit) : outcome unit * unit := (Ret tt, p).
Definition ex_run := bhandle_all unit tt no_pool MMRHashProps.toy_hash HeaderProps.no_bad MAINNET HeaderProps.ex_keys ex_verify ex_sums 10 ex_genesis ex_sums0.
Definition ex_process := ProcessBlock unit no_pool MMRHashProps.toy_hash HeaderProps.no_bad MAINNET HeaderProps.ex_keys ex_verify ex_sums 10 HeaderProps.ex_now.
Definition ex_nothing : node unit := mkNode unit (HeaderProps.ex_start) (mkVer (mkDB [] [] [] [] []) (mkDB [] [] [] [] [])) (mkVer None None) [] tt.
Definition ex_node0 : node unit := match first_start unit tt MMRHashProps.toy_hash ex_genesis ex_sums0 with Ret n => n | _ => ex_nothing end.
Definition after (es : list bevent) : node unit := match ex_run es ex_node0 with Some (_, n) => n | None => ex_nothing end.
Definition get_ {A} (d : A) (r : outcome A) : A := match r with Ret a => a | _ => d end.
(** A block on [parent], the tip of the node [n]: difficulty, sizes and roots as they must be. *)
Definition bmine (n : node unit) (parent : FullBlock) (seconds : Z) (i o : list N) (a : N) : FullBlock :=
  let p := fb_header parent in
  let draft := mkHeader 1 (h_height p + 1) (h_timestamp p + seconds) (BlockHeader_GetHash p)
                 (get_ [] (HeaderRoot MMRHashProps.toy_hash (committed (s_mmr (n_chain n))) (h_height p))) [] [] [] [] 0 0 0 0 0 (mkPoW 24 DifficultyProps.small_nonces (id_ a)) in
  match now_ (n_set n), CalculateNextDifficulty (db_find (headers_db (n_chain n))) MAINNET draft with
  | Some s, Ret info =>
    match ApplyBlock MMRHashProps.toy_hash MAINNET (view n) (mkBlock draft (body_ i o a)) s with
    | Ret (Some (s1, _)) =>
      let osize := GetSize (p_hash (m_pOutputPMMR s1)) in let ksize := GetSize (km_hash (m_pKernelMMR s1)) in
      mkBlock (mkHeader 1 (h_height draft) (h_timestamp draft) (h_previousBlockHash draft) (h_previousRoot draft)
                (get_ [] (Root MMRHashProps.toy_hash (p_hash (m_pOutputPMMR s1)) osize)) (get_ [] (Root MMRHashProps.toy_hash (p_hash (m_pRangeProofPMMR s1)) osize))
                (get_ [] (Root MMRHashProps.toy_hash (km_hash (m_pKernelMMR s1)) ksize)) [] osize ksize (h_totalDifficulty p + hi_difficulty info) (hi_secondaryScaling info) 0
                (h_proofOfWork draft)) (body_ i o a)
    | _ => parent
    end
  | _, _ => parent
  end.
Definition blk (b : FullBlock) : bevent := EBlock HeaderProps.ex_now b.
Definition b1 : FullBlock := Eval vm_compute in bmine ex_node0 ex_genesis 60 [] [101; 102] 1.
Definition b2 : FullBlock := Eval vm_compute in bmine (after [blk b1]) b1 60 [101] [103] 2.
(** A sibling of [b2] and two blocks on it. *)
Definition f2 : FullBlock := Eval vm_compute in bmine (after [blk b1]) b1 90 [101] [104; 105] 12.
Definition f3 : FullBlock := Eval vm_compute in bmine (after [blk b1; blk f2]) f2 60 [102] [106] 13.
Definition results (r : option (list (outcome EBlockChainStatus) * node unit)) : option (list (outcome EBlockChainStatus) * list bytes) :=
  match r with Some (rs, n) => Some (rs, confirmed n) | None => None end.
Definition ex_events : list bevent := [blk b1; blk b2; blk f2; ERestart; blk f3].

Lemma ex_wf i o k : forallb (fun x => x <? 256) o && forallb (fun n => forallb (fun m => negb (bytes_eqb (repeat n 33) (repeat m 33))) o) i = true ->
  forall h, well_formed (mkBlock h (body_ i o k)).
Proof.
  intros E h. apply andb_true_iff in E as (_ & E2). split; cbn [fb_body body_ b_outputs b_inputs].
  - apply Forall_forall. intros x J. apply in_map_iff in J as (n & <- & _). split; [reflexivity|apply repeat_length].
  - intros x y Jx Jy. apply in_map_iff in Jx as (n & <- & Jn). apply in_map_iff in Jy as (m & <- & Jm). cbn. rewrite forallb_forall in E2. specialize (E2 n Jn).
    rewrite forallb_forall in E2. specialize (E2 m Jm). apply negb_true_iff in E2. apply bytes_eqb_false in E2. exact E2.
Qed.
Lemma ex_chains l x rest : In x l -> chained (fb_header x) rest -> incl rest l -> rest <> [] ->
  existsb (fun y => bytes_eqb (h_previousBlockHash (fb_header y)) (BlockHeader_GetHash (fb_header x))) l = true.
Proof.
  intros _ C Inc Ne. destruct rest as [|y rest]; [contradiction|]. destruct C as (C & _). apply existsb_exists. exists y. split; [apply Inc; left; reflexivity|].
  apply bytes_eqb_spec. exact C.
Qed.
(** The chains that can be built from a list of blocks, up to a length. *)
Fixpoint paths (k : nat) (l : list FullBlock) (before : BlockHeader) : list (list FullBlock) :=
  [] :: match k with
        | O => []
        | S k' => flat_map (fun b => if (bytes_eqb (h_previousBlockHash (fb_header b)) (BlockHeader_GetHash before) && (h_height (fb_header b) =? h_height before + 1))%bool
                                     then map (cons b) (paths k' l (fb_header b)) else []) l
        end.
Lemma paths_ok k l : forall before chain, incl chain l -> chained before chain -> (length chain <= k)%nat -> In chain (paths k l before).
Proof.
  induction k as [|k IH]; intros before chain Inc C L; (destruct chain as [|b chain]; [left; reflexivity|]); [cbn in L; lia|].
  destruct C as (C1 & C2 & C). right. apply in_flat_map. exists b. split; [apply Inc; left; reflexivity|].
  rewrite C1, bytes_eqb_refl, C2, N.eqb_refl. cbn [andb]. apply in_map. apply IH; [intros x J; apply Inc; right; exact J|exact C|cbn in L; lia].
Qed.
Lemma chained_bound l m : Forall (fun b => h_height (fb_header b) <= m) l -> forall before chain, incl chain l -> chained before chain -> chain <> [] ->
  h_height before + N.of_nat (length chain) <= m.
Proof.
  intros F before chain. revert before. induction chain as [|b chain IH]; intros before Inc C Ne; [contradiction|]. destruct C as (_ & C2 & C). cbn [length].
  destruct chain as [|b' chain]; [|specialize (IH (fb_header b) (fun x J => Inc x (or_intror J)) C ltac:(discriminate)); lia].
  rewrite Forall_forall in F. specialize (F b (Inc b (or_introl eq_refl))). cbn. lia.
Qed.
(** True sizes can be checked: all chains are enumerated. *)
Definition sizes_check (genesis : FullBlock) (l : list FullBlock) (k : nat) : bool :=
  forallb (fun chain => match rev chain with [] => true | b :: _ =>
    let outputs := N.of_nat (length (outputs_of (genesis :: chain))) in
    let kernels := N.of_nat (length (kernels_of (genesis :: chain))) in
    ((h_outputMMRSize (fb_header b) =? lidx_position (LeafIndex_At outputs)) && (h_kernelMMRSize (fb_header b) =? lidx_position (LeafIndex_At kernels)) &&
     (outputs <? 2 ^ 62) && (kernels <? 2 ^ 62))%bool end) (paths k l (fb_header genesis)).
Lemma sizes_checked genesis l k : forallb (fun b => h_height (fb_header b) <=? N.of_nat k) l = true -> sizes_check genesis l k = true -> true_sizes genesis l.
Proof.
  intros Hk E chain b Inc C. unfold sizes_check in E. rewrite forallb_forall in E.
  assert (L : (length (chain ++ [b]) <= k)%nat).
  { assert (F : Forall (fun b => h_height (fb_header b) <= N.of_nat k) l) by (apply Forall_forall; intros x J; rewrite forallb_forall in Hk; apply N.leb_le, Hk, J).
    pose proof (chained_bound l (N.of_nat k) F _ _ Inc C) as B. assert (chain ++ [b] <> []) by (destruct chain; discriminate). specialize (B H). lia. }
  specialize (E _ (paths_ok k l _ _ Inc C L)). rewrite rev_app_distr in E. cbn [rev app] in E. cbv zeta in *.
  apply andb_true_iff in E as (E & E4). apply andb_true_iff in E as (E & E3). apply andb_true_iff in E as (E1 & E2).
  apply N.eqb_eq in E1, E2. apply N.ltb_lt in E3, E4. auto.
Qed.
Lemma hashes_checked hs : forallb (fun h => forallb (fun h' => (negb (bytes_eqb (BlockHeader_GetHash h) (BlockHeader_GetHash h')) ||
    (h_timestamp h =? h_timestamp h')%Z)%bool) hs) hs = true ->
  (forall h h', In h hs -> In h' hs -> h_timestamp h = h_timestamp h' -> BlockHeader_GetHash h = BlockHeader_GetHash h' -> h = h') -> no_collision hs.
Proof.
  intros E D h h' J J' Eq. apply D; try assumption. rewrite forallb_forall in E. specialize (E h J). rewrite forallb_forall in E. specialize (E h' J').
  rewrite Eq, bytes_eqb_refl in E. cbn in E. apply Z.eqb_eq, E.
Qed.
Example ex_proper : proper_run ex_genesis ex_events.
Proof.
  split; [|split; [|split; [|split]]].
  - repeat split; try reflexivity; apply (ex_wf [] [100] 0); reflexivity.
  - intros h h' J J' Eq. change (all_headers ex_genesis ex_events) with [fb_header ex_genesis; fb_header b1; fb_header b2; fb_header f2; fb_header f3] in J, J'.
    cbn [In] in J, J'. repeat match goal with H : _ \/ _ |- _ => destruct H | H : False |- _ => destruct H end; subst; try reflexivity; vm_compute in Eq; discriminate Eq.
  - repeat constructor; vm_compute; reflexivity.
  - change (all_blocks ex_events) with [mkBlock (fb_header b1) (body_ [] [101; 102] 1); mkBlock (fb_header b2) (body_ [101] [103] 2);
      mkBlock (fb_header f2) (body_ [101] [104; 105] 12); mkBlock (fb_header f3) (body_ [102] [106] 13)].
    repeat constructor; try (vm_compute; reflexivity); apply ex_wf; vm_compute; reflexivity.
  - apply (sizes_checked _ _ 3); vm_compute; reflexivity.
Qed.
(** The fork [f2] is kept aside, as it has no more work than [b2]; with [f3] on it, it takes over. In between the node restarts. *)
Example C48_example : first_start unit tt MMRHashProps.toy_hash ex_genesis ex_sums0 = Ret ex_node0 /\
  results (ex_run ex_events ex_node0) = Some ([Ret SUCCESS; Ret SUCCESS; Ret SUCCESS; Ret SUCCESS; Ret SUCCESS], [id_ 0; id_ 1; id_ 12; id_ 13]) /\
  confirmed (after [blk b1; blk b2; blk f2]) = [id_ 0; id_ 1; id_ 2].
Proof. split; [vm_compute; reflexivity|]. split; vm_compute; reflexivity. Qed.
(** What C48 says of this run: the coins of [b1], [f2] and [f3] are there, those of [b2] are not. *)
Example C48_example_coins : exists s l, committed (n_set (after ex_events)) = Some s /\ represents MMRHashProps.toy_hash 1 l s (committed (n_db (after ex_events))) /\
  GetOutputPosition (committed (n_db (after ex_events))) (repeat 106 33) <> None /\ GetOutputPosition (committed (n_db (after ex_events))) (repeat 103 33) = None.
Proof.
  destruct C48_example as (E0 & E & _). unfold results in E. destruct (ex_run ex_events ex_node0) as [(rs, n)|] eqn:Er; [|discriminate].
  assert (En : after ex_events = n) by (unfold after; rewrite Er; reflexivity).
  destruct (C48_node_follows_its_chain unit tt no_pool _ _ _ _ _ _ _ _ _ _ _ _ _ ex_proper E0 Er) as (_ & chain & s & l & t & _ & _ & _ & _ & S & _ & _ & R & _).
  rewrite En. exists s, l. split; [exact S|]. split; [exact R|]. rewrite <- En. split; [|vm_compute; reflexivity]. vm_compute. discriminate.
Qed.

(** * What fails *)
(** A block that is rejected takes others with it: [f2] waits in the orphan pool; a block on it with a wrong body is rejected, and [f2] is
    gone, although nothing was wrong with it (BlockProcessor.cpp:156-166; RemoveOrphan is not undone). *)
Definition bad3 : FullBlock := mkBlock (fb_header f3) (body_ [102] [107] 13).
Definition waiting : list bevent := [EHeader HeaderProps.ex_now (fb_header b1); blk f2; blk b1].
Theorem C18_orphans_kept_refuted : exists rs n n',
  ex_run waiting ex_node0 = Some (rs, n) /\ ex_process bad3 n = (Some Throw, n') /\
  n_orphans n = [f2] /\ n_orphans n' = [] /\ tget (d_blocks (committed (n_db n'))) (id_ 12) = None /\
  results (ex_run [ENextOrphan HeaderProps.ex_now] n) = Some ([Ret SUCCESS], [id_ 0; id_ 1; id_ 12]) /\
  results (ex_run [ENextOrphan HeaderProps.ex_now] n') = Some ([Ret INVALID], [id_ 0; id_ 1]).
Proof.
  exists [Ret SUCCESS; Ret ORPHANED; Ret SUCCESS], (after waiting), (snd (ex_process bad3 (after waiting))).
  split; [vm_compute; reflexivity|]. split; [vm_compute; reflexivity|]. split; [vm_compute; reflexivity|]. split; [vm_compute; reflexivity|].
  split; [vm_compute; reflexivity|]. split; vm_compute; reflexivity.
Qed.

(** The hash of a block is that of its header. A peer sends a block with the genuine header [f3] and another body while [f2] is not yet
    known: it is kept as an orphan. From then on the node does not ask for the block with that hash any more, and every attempt to use the
    branch fails on the false body, which stays: the node remains on a chain with less work than the best header chain, of which all
    genuine blocks but this one are delivered as often as one likes. *)
Definition b3 : FullBlock := Eval vm_compute in bmine (after [blk b1; blk b2]) b2 60 [] [108] 3.
Definition f4 : FullBlock := Eval vm_compute in bmine (after [blk b1; blk f2; blk f3]) f3 60 [] [109] 14.
Definition poisoned : list bevent :=
  [blk b1; blk b2; blk b3; EHeaders HeaderProps.ex_now [fb_header f2; fb_header f3; fb_header f4]; blk bad3; blk f2].
Lemma run_cons n e es r rs : ex_run [e] n = Some ([r], n) -> ex_run es n = Some (rs, n) -> ex_run (e :: es) n = Some (r :: rs, n).
Proof.
  intros R IH. unfold ex_run in *. cbn [bhandle_all] in *. destruct (bhandle _ _ _ _ _ _ _ _ _ _ _ _ e n) as ([[x| |]|], n1); try discriminate;
    injection R as <- ->; rewrite IH; reflexivity.
Qed.
Theorem C49_poisoned_orphan_refuted : exists rs n,
  ex_run poisoned ex_node0 = Some (rs, n) /\
  (* the genuine branch is valid *)
  results (ex_run [blk b1; blk f2; blk f3; blk f4] ex_node0) = Some (repeat (Ret SUCCESS) 4, [id_ 0; id_ 1; id_ 12; id_ 13; id_ 14]) /\
  (* and is the best header chain, with more work than the confirmed one *)
  best (n_chain n) = [id_ 0; id_ 1; id_ 12; id_ 13; id_ 14] /\ confirmed n = [id_ 0; id_ 1; id_ 2; id_ 3] /\
  h_totalDifficulty (fb_header b3) < h_totalDifficulty (fb_header f4) /\
  (* [f3] is not stored, and not asked for *)
  tget (d_blocks (committed (n_db n))) (id_ 13) = None /\ (forall max, ~ In (3, id_ 13) (GetBlocksNeeded unit max n)) /\
  (* nothing changes whatever else is delivered or tried *)
  forall es, Forall (fun e => e = blk f2 \/ e = blk f4 \/ e = ENextOrphan HeaderProps.ex_now) es -> exists rs', ex_run es n = Some (rs', n).
Proof.
  exists [Ret SUCCESS; Ret SUCCESS; Ret SUCCESS; Ret SUCCESS; Ret ORPHANED; Ret SUCCESS], (after poisoned).
  split; [vm_compute; reflexivity|]. split; [vm_compute; reflexivity|]. split; [vm_compute; reflexivity|]. split; [vm_compute; reflexivity|].
  split; [vm_compute; reflexivity|]. split; [vm_compute; reflexivity|]. split.
  - intros k J. apply needed_no_orphan in J. vm_compute in J. discriminate J.
  - assert (One : forall e, e = blk f2 \/ e = blk f4 \/ e = ENextOrphan HeaderProps.ex_now -> exists r, ex_run [e] (after poisoned) = Some ([r], after poisoned)).
    { intros e [->|[->| ->]]; eexists; vm_compute; reflexivity. }
    induction 1 as [|e es He _ IH]; [eexists; reflexivity|]. destruct (One e He) as (r & R). destruct IH as (rs & IH).
    exists (r :: rs). exact (run_cons _ _ _ _ _ R IH).
Qed.

Definition block_theorems := (@C18_rejected_block_changes_nothing, @C18_rejected_block_leaves_header_only, @C48_node_follows_its_chain, @C48_chain_only_improves,
  @C48_supply, @C49_needed_blocks, C18_orphans_kept_refuted, C49_poisoned_orphan_refuted, ex_proper, C48_example, C48_example_coins).
Print Assumptions block_theorems.
