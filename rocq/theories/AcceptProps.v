(** C55: a valid block is accepted, an invalid one is not, and a branch with more work is adopted. *)
From Verif Require Import Base Bytes MMRIndexModel MMRHashModel MMRHashSpec CodecModel ConsensusModel CuckooModel CacheModel HeaderModel HeaderSpec HeaderProofs HeaderInv
  ValidationModel UtxoModel UtxoSpec UtxoProofs UtxoRewind UtxoRoots PoolModel BlockModel BlockSpec BlockHeaders BlockProofs BlockNode BlockProps AcceptSpec AcceptProofs.
From Verif Require MMRHashProps HeaderProps.
Local Open Scope N_scope.

Section Props.
Variable pool : Type.
Variable empty_pool : pool.
Variable ReconcileBlock : blockdb -> txhashset -> BlockHeader -> FullBlock -> pool -> outcome unit * pool.
Variable Blake2b : bytes -> bytes.
Variable BAD_BLOCKS : bytes -> bool.
Variable env : Environment.
Variable pow_keys : BlockHeader -> sip.
Variable verify : FullBlock -> outcome unit.
Variable sums : BlockSums -> FullBlock -> outcome BlockSums.
Variable genesis : FullBlock.
Variable genesis_sums : BlockSums.
Notation base := (fb_header genesis).
Notation run := (bhandle_all pool empty_pool ReconcileBlock Blake2b BAD_BLOCKS env pow_keys verify sums).
Notation start := (first_start pool empty_pool Blake2b genesis genesis_sums).
Notation process := (ProcessBlock pool ReconcileBlock Blake2b BAD_BLOCKS env pow_keys verify sums).
Notation hash b := (BlockHeader_GetHash (fb_header b)).
Notation horizon n := (GetHorizonHeight (sub64 (N.of_nat (length (now_ (s_candidate (n_chain n))))) 1)).
Notation header_step fuel now b n := (ProcessSingleHeader Blake2b BAD_BLOCKS env pow_keys fuel now (fb_header b) (n_chain n)).
(** The transaction pool takes in the block without throwing, and is then ready for the next one. *)
Definition takes (pool_ok : pool -> Prop) (b : FullBlock) : Prop :=
  forall d s h p, pool_ok p -> fst (ReconcileBlock d s h b p) = Ret tt /\ pool_ok (snd (ReconcileBlock d s h b p)).

Lemma last_valid l t init b : valid_blocks Blake2b env verify sums l t (init ++ [b]) -> verify b = Ret tt.
Proof. revert l t. induction init as [|x init IH]; intros l t V; cbn in V; [apply V|]. destruct V as (_ & l' & t' & _ & _ & _ & V). exact (IH _ _ V). Qed.
(** What the second half of the call starts from. *)
Lemma prepared fuel now es b n0 rs n chain c st :
  proper_run genesis (es ++ [EBlock now b]) -> start = Ret n0 -> run fuel genesis genesis_sums es n0 = Some (rs, n) ->
  confirmed n = map BlockHeader_GetHash (base :: map fb_header chain) ->
  Forall (fun x => tget (d_blocks (committed (n_db n))) (hash x) = Some x) chain ->
  header_step fuel now b n = Some (Ret st, c) ->
  let HS := all_headers genesis (es ++ [EBlock now b]) in let BS := all_blocks (es ++ [EBlock now b]) in
  In b BS /\ (exists s l, NI pool Blake2b env verify sums genesis genesis_sums HS BS (set_chain n c) chain s l) /\
  d_blocks (view (set_chain n c)) = d_blocks (committed (n_db n)) /\ d_headers (view (set_chain n c)) = headers_db c.
Proof.
  intros (G & U & Sm & W & Z) E0 E Cf Sto Eh HS BS. pose proof (smalls _ _ Sm) as Sm'. rewrite Forall_forall in W.
  assert (A1 : incl (flat_map event_headers es) HS) by (intros x J; right; rewrite flat_map_app; apply in_or_app; left; exact J).
  assert (A2 : incl (flat_map event_blocks es) BS) by (intros x J; unfold BS, all_blocks; rewrite flat_map_app; apply in_or_app; left; exact J).
  assert (Jb : In b BS) by (unfold BS, all_blocks; rewrite flat_map_app; apply in_or_app; right; left; reflexivity).
  destruct (reached pool empty_pool ReconcileBlock Blake2b BAD_BLOCKS env pow_keys verify sums genesis genesis_sums fuel es n0 rs n HS BS
    G U Sm' W Z (or_introl eq_refl) (blocks_headers pow_keys verify sums genesis genesis_sums _) A1 A2 E0 E) as (chain' & s & l & I).
  assert (Ec : chain' = chain).
  { apply (chain_fun (d_blocks (committed (n_db n)))).
    - pose proof (ni_conf _ _ _ _ _ _ _ _ _ _ _ _ _ I) as Q. unfold confirmed in Cf. rewrite Cf in Q. unfold hashes in Q. cbn [map] in Q. rewrite map_map in Q.
      injection Q as Q. symmetry. exact Q.
    - rewrite <- (ni_db _ _ _ _ _ _ _ _ _ _ _ _ _ I). destruct (g_inv _ _ _ _ _ _ _ _ _ _ _ (ni_good _ _ _ _ _ _ _ _ _ _ _ _ _ I)) as (Ch & _).
      exact (chain_stored _ _ _ _ _ Ch).
    - rewrite Forall_forall in Sto. exact Sto. }
  subst chain'. pose proof (single_grows Blake2b BAD_BLOCKS env pow_keys HS Sm' _ _ _ _ _ _ (ni_head _ _ _ _ _ _ _ _ _ _ _ _ _ I) (blocks_headers pow_keys verify sums genesis genesis_sums _ _ Jb) Eh) as Gr.
  pose proof (NI_grows pool Blake2b env verify sums genesis genesis_sums HS BS U _ _ _ _ _ I Gr) as I'.
  split; [exact Jb|]. split; [exists s, l; exact I'|]. split.
  - unfold view, set_chain. cbn. rewrite (ni_db _ _ _ _ _ _ _ _ _ _ _ _ _ I). reflexivity.
  - exact (view_headers _ _ _ _ _ _ _ _ _ _ _ _ _ I').
Qed.
Lemma process_step fuel now b n c st : horizon n < h_height (fb_header b) -> header_step fuel now b n = Some (Ret st, c) ->
  forall n', process fuel now b n = (Some (Ret SUCCESS), n') <->
    verify b = Ret tt /\ ProcessBlockInternal pool ReconcileBlock Blake2b env verify sums fuel b (set_chain n c) = (Some (Ret SUCCESS), n').
Proof.
  intros Hz Eh n'. unfold ProcessBlock. unfold bbind at 1, bget at 1. replace (_ <=? _) with false by (symmetry; apply N.leb_gt; exact Hz).
  unfold bbind at 1. rewrite Eh. unfold bbind, blift. destruct (verify b) as [[]| |]; [|split; [discriminate|intros (Q & _); discriminate Q]|split; [discriminate|intros (Q & _); discriminate Q]].
  split; [auto|]. intros (_ & Q). exact Q.
Qed.

(** After any run of the node whose confirmed chain is [chain], with ledger [l] and sums [total]: a block that names the tip, is above the
    horizon, was not processed before and whose header is accepted, is accepted exactly if it is one higher than the tip and valid; then
    it is the new tip. *)
Theorem C55_next_block_exact pool_ok fuel now es b n0 rs n chain l total c st :
  (forall m, Blake2b m <> repeat 0 32) ->
  proper_run genesis (es ++ [EBlock now b]) -> start = Ret n0 -> run fuel genesis genesis_sums es n0 = Some (rs, n) ->
  confirmed n = map BlockHeader_GetHash (base :: map fb_header chain) ->
  Forall (fun x => tget (d_blocks (committed (n_db n))) (hash x) = Some x) chain ->
  chain_ledger env 1 (genesis_ledger genesis) chain l -> chain_sums verify sums genesis_sums chain = Ret total ->
  horizon n < h_height (fb_header b) -> header_step fuel now b n = Some (Ret st, c) -> tget (headers_db c) (hash b) <> None ->
  tget (d_blocks (committed (n_db n))) (hash b) = None -> h_previousBlockHash (fb_header b) = BlockHeader_GetHash (tip base chain) ->
  takes pool_ok b -> pool_ok (n_pool n) ->
  ((exists n', process fuel now b n = (Some (Ret SUCCESS), n')) <->
     h_height (fb_header b) = h_height (tip base chain) + 1 /\ valid_blocks Blake2b env verify sums l total [b]) /\
  (forall n', process fuel now b n = (Some (Ret SUCCESS), n') -> confirmed n' = confirmed n ++ [hash b]).
Proof.
  intros HZ P E0 E Cf Sto L Tt Hz Eh Sh Nb Pv Pt Po.
  destruct (prepared fuel now es b n0 rs n chain c st P E0 E Cf Sto Eh) as (Jb & (s & l1 & I) & V1 & V2).
  destruct P as (G & U & Sm & W & Z). pose proof (smalls _ _ Sm) as Sm'. rewrite Forall_forall in W.
  assert (El : l = l1).
  { destruct (g_inv _ _ _ _ _ _ _ _ _ _ _ (ni_good _ _ _ _ _ _ _ _ _ _ _ _ _ I)) as (Ch & _). exact (ledger_fun _ _ _ _ _ _ Ch L). }
  subst l1. rewrite <- V1 in Nb. rewrite <- V2 in Sh.
  destruct (next_accepted pool ReconcileBlock Blake2b env verify sums HZ pool_ok genesis genesis_sums _ _ Sm' U (or_introl eq_refl) G (blocks_headers pow_keys verify sums genesis genesis_sums _) W Z
    fuel (set_chain n c) chain s l b total I Jb Sh Nb Pv Tt Pt Po) as (X & Y).
  pose proof (process_step fuel now b n c st Hz Eh) as Q. split; [split|].
  - intros (n' & R). apply Q in R as (_ & R). apply X. eauto.
  - intros (Hh & V). destruct (proj2 X (conj Hh V)) as (n' & R). exists n'. apply Q. split; [exact (last_valid l total [] b V)|exact R].
  - intros n' R. apply Q in R as (_ & R). rewrite (Y n' R), Cf. unfold hashes. rewrite map_app. cbn [map]. rewrite map_map. reflexivity.
Qed.

(** The same for a branch: [chain = pre ++ undone], and [init] are blocks on [pre] off the confirmed chain, each either kept aside in the
    database or waiting as an orphan, none of the orphans being a false twin of one of them (C49_poisoned_orphan_refuted). The block on top
    of them is accepted exactly if the whole branch is valid from [pre] on; then the branch becomes the confirmed chain if it has more
    work, and else the chain stays. *)
Theorem C55_branch_exact pool_ok fuel now es init b n0 rs n pre undone l total c st :
  (forall m, Blake2b m <> repeat 0 32) ->
  proper_run genesis (es ++ [EBlock now b]) -> start = Ret n0 -> run fuel genesis genesis_sums es n0 = Some (rs, n) ->
  confirmed n = map BlockHeader_GetHash (base :: map fb_header (pre ++ undone)) ->
  Forall (fun x => tget (d_blocks (committed (n_db n))) (hash x) = Some x) (pre ++ undone) ->
  chain_ledger env 1 (genesis_ledger genesis) pre l -> chain_sums verify sums genesis_sums pre = Ret total ->
  horizon n < h_height (fb_header b) -> header_step fuel now b n = Some (Ret st, c) ->
  Forall (fun x => tget (headers_db c) (hash x) <> None /\ ~ In (hash x) (confirmed n)) (init ++ [b]) ->
  tget (d_blocks (committed (n_db n))) (hash b) = None ->
  Forall (fun x => In x (n_orphans n) \/ tget (d_blocks (committed (n_db n))) (hash x) = Some x) init ->
  (forall x y, In x init -> In y (n_orphans n) -> hash y = hash x -> y = x) ->
  chained base (pre ++ init ++ [b]) -> init ++ undone <> [] -> (length init <= fuel)%nat -> (length undone <= fuel)%nat ->
  Forall (takes pool_ok) (init ++ [b]) -> pool_ok (n_pool n) ->
  ((exists n', process fuel now b n = (Some (Ret SUCCESS), n')) <-> valid_blocks Blake2b env verify sums l total (init ++ [b])) /\
  (forall n', process fuel now b n = (Some (Ret SUCCESS), n') -> confirmed n' =
     if h_totalDifficulty (tip base (pre ++ undone)) <? h_totalDifficulty (fb_header b)
     then map BlockHeader_GetHash (base :: map fb_header (pre ++ init ++ [b])) else confirmed n).
Proof.
  intros HZ P E0 E Cf Sto L Tt Hz Eh Sh Nb Kn Tw Cb Ne F1 F2 Pt Po.
  destruct (prepared fuel now es b n0 rs n (pre ++ undone) c st P E0 E Cf Sto Eh) as (Jb & (s & l1 & I) & V1 & V2).
  destruct P as (G & U & Sm & W & Z). pose proof (smalls _ _ Sm) as Sm'. rewrite Forall_forall in W. rewrite Forall_forall in Sh, Kn.
  assert (Cf' : confirmed n = hashes base (pre ++ undone)) by (rewrite Cf; unfold hashes; cbn [map]; rewrite map_map; reflexivity).
  destruct (branch_exact pool empty_pool ReconcileBlock Blake2b env verify sums HZ pool_ok genesis genesis_sums _ _ Sm' U (or_introl eq_refl) G (blocks_headers pow_keys verify sums genesis genesis_sums _) W Z
    fuel (set_chain n c) (pre ++ undone) s l1 pre undone init b l total I eq_refl) as (X & Y); try assumption.
  - intros x J. apply in_app_or in J as [J|[<-|[]]]; [|exact Jb]. destruct (Kn x J) as [K|K].
    + exact (ni_orphans _ _ _ _ _ _ _ _ _ _ _ _ _ I x K).
    + rewrite <- V1 in K. exact (proj1 (ni_blocks _ _ _ _ _ _ _ _ _ _ _ _ _ I _ _ K)).
  - intros x J. rewrite V2. exact (proj1 (Sh x J)).
  - intros x J. rewrite <- Cf'. exact (proj2 (Sh x J)).
  - rewrite V1. exact Nb.
  - intros x J. rewrite V1. exact (Kn x J).
  - pose proof (process_step fuel now b n c st Hz Eh) as Q. split; [split|].
    + intros (n' & R). apply Q in R as (_ & R). apply X. eauto.
    + intros V. destruct (proj2 X V) as (n' & R). exists n'. apply Q. split; [exact (last_valid l total init b V)|exact R].
    + intros n' R. apply Q in R as (_ & R). rewrite (Y n' R), Cf'. rewrite hashes_map. reflexivity.
Qed.
End Props.

(** The transaction pool of the code takes in any block when it is empty, and stays empty. *)
Theorem C55_empty_pool_takes Blake2b VRP VKS AddC CT CB AddBF env b :
  takes txpool (PoolModel.ReconcileBlock Blake2b VRP VKS AddC CT CB AddBF env) (fun p => p = mkPool [] []) b.
Proof. intros d s h p ->. split; reflexivity. Qed.

(** * The toy network of BlockProps.v: [b2] on [b1], and the branch [f2], [f3] that takes over from [b2]. *)
Lemma sub_proper es es2 : incl (all_headers ex_genesis es2) (all_headers ex_genesis es) -> incl (all_blocks es2) (all_blocks es) -> proper_run ex_genesis es -> proper_run ex_genesis es2.
Proof.
  intros I1 I2 (G & U & Sm & W & Z). split; [exact G|]. split; [intros h h' J J'; apply U; apply I1; assumption|].
  split; [rewrite Forall_forall in *; intros h J; apply Sm, I1, J|]. split; [rewrite Forall_forall in *; intros x J; apply W, I2, J|].
  intros chain x Inc. apply Z. intros y J. apply I2, Inc, J.
Qed.
Definition c_of (b : FullBlock) (n : node unit) : cstate :=
  match ProcessSingleHeader MMRHashProps.toy_hash HeaderProps.no_bad MAINNET HeaderProps.ex_keys 10 HeaderProps.ex_now (fb_header b) (n_chain n) with Some (_, c) => c | None => n_chain n end.
Lemma not_in_checked (x : bytes) l : existsb (bytes_eqb x) l = false -> ~ In x l.
Proof. intros E J. assert (existsb (bytes_eqb x) l = true); [|congruence]. apply existsb_exists. exists x. split; [exact J|apply bytes_eqb_refl]. Qed.
(** The nodes of the examples, computed once. *)
Definition node1 : node unit := Eval vm_compute in after [blk b1].
Definition node3 : node unit := Eval vm_compute in after [blk b1; blk b2; blk f2].
Definition chain2 : cstate := Eval vm_compute in c_of b2 node1.
Definition chain4 : cstate := Eval vm_compute in c_of f3 node3.
Definition node2 : node unit := Eval vm_compute in snd (ex_process b2 node1).
Definition node4 : node unit := Eval vm_compute in snd (ex_process f3 node3).
Example C55_example_next : exists l,
  chain_ledger MAINNET 1 (genesis_ledger ex_genesis) [b1] l /\ valid_blocks MMRHashProps.toy_hash MAINNET ex_verify ex_sums l ex_sums0 [b2].
Proof.
  assert (P : proper_run ex_genesis ([blk b1] ++ [blk b2])).
  { apply (sub_proper ex_events); [| |exact ex_proper]; intros x J; cbn in J |- *; tauto. }
  assert (E0 : first_start unit tt MMRHashProps.toy_hash ex_genesis ex_sums0 = Ret ex_node0) by (vm_compute; reflexivity).
  assert (E1 : ex_run [blk b1] ex_node0 = Some ([Ret SUCCESS], node1)) by (vm_compute; reflexivity).
  assert (P1 : proper_run ex_genesis [blk b1]).
  { apply (sub_proper ex_events); [| |exact ex_proper]; intros x J; cbn in J |- *; tauto. }
  destruct (C48_node_follows_its_chain unit tt no_pool _ _ _ _ _ _ _ _ _ _ _ _ _ P1 E0 E1) as (_ & chain & s & l & t & Cf & _ & _ & Sto & _ & _ & L & _ & Tt & _).
  assert (Ec : chain = [b1]).
  { assert (Q : confirmed node1 = map BlockHeader_GetHash (fb_header ex_genesis :: map fb_header [b1])) by (vm_compute; reflexivity).
    rewrite Cf in Q. cbn [map] in Q. rewrite !map_map in Q. injection Q as Q.
    apply (chain_fun (d_blocks (committed (n_db node1)))); [exact Q|rewrite Forall_forall in Sto; exact Sto|].
    intros c [<-|[]]. vm_compute. reflexivity. }
  subst chain. exists l. split; [exact L|]. enough (Q : h_height (fb_header b2) = h_height (tip (fb_header ex_genesis) [b1]) + 1 /\
    valid_blocks MMRHashProps.toy_hash MAINNET ex_verify ex_sums l ex_sums0 [b2]) by exact (proj2 Q). assert (Et : t = ex_sums0) by (cbn in Tt; congruence). subst t.
  refine (proj1 (proj1 (C55_next_block_exact unit tt no_pool MMRHashProps.toy_hash HeaderProps.no_bad MAINNET HeaderProps.ex_keys ex_verify ex_sums ex_genesis ex_sums0
    (fun _ => True) 10 HeaderProps.ex_now [blk b1] b2 ex_node0 [Ret SUCCESS] node1 [b1] l ex_sums0 chain2 SUCCESS _ P E0 E1 Cf Sto L Tt _ _ _ _ _ _ _)) _).
  - apply MMRHashProps.toy_hash_ok.
  - vm_compute. reflexivity.
  - vm_compute. reflexivity.
  - vm_compute. discriminate.
  - vm_compute. reflexivity.
  - vm_compute. reflexivity.
  - intros d s' h p _. split; [reflexivity|exact I].
  - exact I.
  - exists node2. vm_compute. reflexivity.
Qed.
(** After [b1], [b2] and, kept aside, [f2]: the branch [f2], [f3] is valid from [b1] on and takes over. *)
Example C55_example_branch : exists l,
  chain_ledger MAINNET 1 (genesis_ledger ex_genesis) [b1] l /\ valid_blocks MMRHashProps.toy_hash MAINNET ex_verify ex_sums l ex_sums0 [f2; f3] /\
  h_totalDifficulty (fb_header b2) < h_totalDifficulty (fb_header f3) /\
  confirmed node4 = [id_ 0; id_ 1; id_ 12; id_ 13].
Proof.
  assert (P : proper_run ex_genesis ([blk b1; blk b2; blk f2] ++ [blk f3])).
  { apply (sub_proper ex_events); [| |exact ex_proper]; intros x J; cbn in J |- *; tauto. }
  assert (E0 : first_start unit tt MMRHashProps.toy_hash ex_genesis ex_sums0 = Ret ex_node0) by (vm_compute; reflexivity).
  assert (E1 : ex_run [blk b1; blk b2; blk f2] ex_node0 = Some ([Ret SUCCESS; Ret SUCCESS; Ret SUCCESS], node3)) by (vm_compute; reflexivity).
  destruct C55_example_next as (l & L & _). exists l. split; [exact L|].
  split; [|split; vm_compute; reflexivity].
  refine (proj1 (proj1 (C55_branch_exact unit tt no_pool MMRHashProps.toy_hash HeaderProps.no_bad MAINNET HeaderProps.ex_keys ex_verify ex_sums ex_genesis ex_sums0
    (fun _ => True) 10 HeaderProps.ex_now [blk b1; blk b2; blk f2] [f2] f3 ex_node0 [Ret SUCCESS; Ret SUCCESS; Ret SUCCESS] node3 [b1] [b2] l ex_sums0 chain4 SUCCESS _ P E0 E1 _ _ L _ _ _ _ _ _ _ _ _ _ _ _ _)) _).
  - apply MMRHashProps.toy_hash_ok.
  - vm_compute. reflexivity.
  - constructor; [vm_compute; reflexivity|]. constructor; [vm_compute; reflexivity|]. constructor.
  - reflexivity.
  - vm_compute. reflexivity.
  - vm_compute. reflexivity.
  - constructor; [|constructor; [|constructor]]; (split; [vm_compute; discriminate|]); apply (not_in_checked (BlockHeader_GetHash _)); vm_compute; reflexivity.
  - vm_compute. reflexivity.
  - constructor; [right; vm_compute; reflexivity|constructor].
  - intros x y _ J. exfalso. assert (Q : n_orphans node3 = []) by (vm_compute; reflexivity). rewrite Q in J. destruct J.
  - cbn [chained app]. split; [vm_compute; reflexivity|]. split; [vm_compute; reflexivity|]. split; [vm_compute; reflexivity|]. split; [vm_compute; reflexivity|].
    split; [vm_compute; reflexivity|]. split; [vm_compute; reflexivity|exact I].
  - discriminate.
  - cbn. lia.
  - cbn. lia.
  - constructor; [|constructor; [|constructor]]; intros d s' h p _; (split; [reflexivity|exact I]).
  - exact I.
  - exists node4. vm_compute. reflexivity.
Qed.

Definition accept_theorems := (@C55_next_block_exact, @C55_branch_exact, @C55_empty_pool_takes).
Print Assumptions accept_theorems.
