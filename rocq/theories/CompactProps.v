(** C56: compact blocks. *)
From Coq Require Import Permutation.
From Verif Require Import Base Bytes FileModel SerialModel CodecModel CodecProofs ConsensusModel CuckooModel HeaderModel ValidationModel ValidationSpec ValidationProofs ValidationProps
  UtxoModel BlockModel PoolModel CompactModel CompactSpec CompactProofs.
From Verif Require Import DifficultyModel MMRIndexModel MMRHashModel CacheModel HeaderSpec.
From Verif Require MMRHashProps DifficultyProps HeaderProps BlockProps UtxoProps PoolProps.
Local Open Scope N_scope.

Section Props.
Variable Blake2b : bytes -> bytes.
Variable SipHash24 : N -> N -> bytes -> N.
Hypothesis Blake2b_bytes : forall x, length (Blake2b x) = 32%nat /\ is_bytes (Blake2b x).
Variable VRP : list (bytes * bytes) -> bool.
Variable VKS : list bytes -> list bytes -> list bytes -> bool.
Variable AddC : list bytes -> list bytes -> outcome bytes.
Variable CT : N -> bytes.
Variable env : Environment.
Notation consistent := (VerifySelfConsistent Blake2b VRP VKS AddC CT env).
Notation short b nonce := (fun k => ShortId_Create Blake2b SipHash24 (kernel_hash Blake2b k) (BlockHeader_GetHash (fb_header b)) nonce).
Notation kernels_of := (flat_map (fun t => b_kernels (t_body t))).
Notation create := (CreateCompactBlock Blake2b SipHash24).

(** A consistent block without repeated kernels, made of its coinbase and of the transactions [ts], is rebuilt exactly from its compact
    form by every node whose memory pool has those transactions, if no two kernels of the pool share a short id. *)
Theorem C56_rebuilt_partial nonce b ts p :
  consistent b = Ret tt -> NoDup (b_kernels (fb_body b)) -> made_of b ts ->
  incl ts (map e_tx p) -> Forall (fun t => exists k, In k (b_kernels (t_body t)) /\ kernel_IsCoinbase k = false) ts ->
  NoDup (map (short b nonce) (kernels_of (map e_tx p))) ->
  collision_free (input_hash Blake2b) (flat_map (fun t => b_inputs (t_body t)) ts) ->
  collision_free (output_hash Blake2b) (flat_map (fun t => b_outputs (t_body t)) ts ++ b_outputs (fb_body b)) ->
  collision_free (kernel_hash Blake2b) (kernels_of ts ++ b_kernels (fb_body b)) ->
  Hydrate Blake2b SipHash24 (create nonce b) p = Some b.
Proof. exact (rebuilt Blake2b SipHash24 VRP VKS AddC CT env Blake2b_bytes nonce b ts p). Qed.

(** A compact form with an id that belongs to no kernel of the pool is not taken for complete. *)
Theorem C56_incomplete_noticed c p x :
  NoDup (map (fun k => ShortId_Create Blake2b SipHash24 (kernel_hash Blake2b k) (BlockHeader_GetHash (cb_header c)) (cb_nonce c)) (kernels_of (map e_tx p))) ->
  In x (cb_shortIds c) -> ~ In x (map (fun k => ShortId_Create Blake2b SipHash24 (kernel_hash Blake2b k) (BlockHeader_GetHash (cb_header c)) (cb_nonce c)) (kernels_of (map e_tx p))) ->
  Hydrate Blake2b SipHash24 c p = None.
Proof.
  rewrite <- (pool_kernels_ids (fun k => ShortId_Create Blake2b SipHash24 (kernel_hash Blake2b k) (BlockHeader_GetHash (cb_header c)) (cb_nonce c))). intros N J K. unfold Hydrate.
  destruct (cb_shortIds c) as [|s0 rest]; [destruct J|]. set (ids := s0 :: rest) in *. unfold GetTransactionsByShortId.
  set (f := fun k => ShortId_Create Blake2b SipHash24 (kernel_hash Blake2b k) (BlockHeader_GetHash (cb_header c)) (cb_nonce c)) in *.
  pose proof (hits_few f (id_set ids) (pool_kernels p) x N (proj2 (id_set_in x ids) J) K) as L. rewrite find_all by (cbn [length Nat.add]; exact (hits_fit f (id_set ids) (pool_kernels p) N)).
  cbn [app]. rewrite map_length. pose proof (id_set_length ids) as L2. destruct (Nat.eqb_spec (length (filter (fun tk : txptr * TransactionKernel => existsb (bytes_eqb (f (snd tk))) (id_set ids)) (pool_kernels p))) (length ids)) as [E|E]; [|reflexivity].
  exfalso. rewrite E in L. lia.
Qed.

Section Node.
Variable pool : Type.
Variable memPool : pool -> list entry.
Variable ReconcileBlock : blockdb -> txhashset -> BlockHeader -> FullBlock -> pool -> outcome unit * pool.
Variable BAD_BLOCKS : bytes -> bool.
Variable pow_keys : BlockHeader -> sip.
Variable verify : FullBlock -> outcome unit.
Variable sums : BlockSums -> FullBlock -> outcome BlockSums.
Notation add_block := (ProcessBlock pool ReconcileBlock Blake2b BAD_BLOCKS env pow_keys verify sums).
Notation add_compact := (AddCompactBlock Blake2b SipHash24 pool memPool ReconcileBlock BAD_BLOCKS env pow_keys verify sums).

(** Whatever compact block a peer sends, the node does at most what it does with some full block that has the same header, and it reports
    success only if that block was added. So what holds after any blocks (C48) holds after any compact blocks. *)
Theorem C56_only_blocks fuel now c n r n' : add_compact fuel now c n = (r, n') ->
  (n' = n /\ (r = Some (Ret (Status ALREADY_EXISTS)) \/ r = Some (Ret Missing))) \/
  (exists b r0, fb_header b = cb_header c /\ add_block fuel now b n = (r0, n') /\
    (forall st, r = Some (Ret (Status st)) -> r0 = Some (Ret st)) /\ (r = Some (Ret Missing) -> r0 = Some Throw \/ r0 = Some (Ret INVALID)) /\ (r = Some Fault -> r0 = Some Fault) /\ r <> Some Throw).
Proof.
  unfold AddCompactBlock. destruct (on_chain _ _ _); [intros E; injection E as <- <-; auto|]. destruct (Hydrate _ _ c _) as [b|] eqn:H; [|intros E; injection E as <- <-; auto].
  intros E. right. destruct (add_block fuel now b n) as (r0, n0) eqn:P. exists b, r0. split.
  { revert H. unfold Hydrate. assert (Hh : forall xs, fb_header (Hydrate_with Blake2b c xs) = cb_header c) by (intros xs; unfold Hydrate_with; destruct (PerformCutThrough _ _); reflexivity).
    destruct (cb_shortIds c); [intros H; injection H as <-; apply Hh|]. destruct (_ =? _)%nat; [|discriminate]. intros H; injection H as <-; apply Hh. }
  destruct r0 as [[[]| |]|]; injection E as <- <-; (split; [exact P|]); repeat split; intros; try discriminate; auto; match goal with H : _ = Some (Ret (Status _)) |- _ => injection H as <-; reflexivity end.
Qed.
(** A block that is not yet on the chain and is rebuilt is treated as if it had been sent in full, except that the full block is asked for
    when it is refused; one that cannot be rebuilt changes nothing and is asked for in full. *)
Theorem C56_as_full fuel now nonce b n : on_chain (confirmed_now n) (h_height (fb_header b)) (BlockHeader_GetHash (fb_header b)) = false ->
  Hydrate Blake2b SipHash24 (create nonce b) (memPool (n_pool n)) = Some b ->
  let '(r, n') := add_block fuel now b n in
  snd (add_compact fuel now (create nonce b) n) = n' /\
  (forall st, st <> INVALID -> r = Some (Ret st) <-> fst (add_compact fuel now (create nonce b) n) = Some (Ret (Status st))) /\
  (r = Some Throw \/ r = Some (Ret INVALID) <-> fst (add_compact fuel now (create nonce b) n) = Some (Ret Missing)).
Proof.
  intros C H. unfold AddCompactBlock. cbn [CreateCompactBlock cb_header]. rewrite C. cbn [CreateCompactBlock] in H. rewrite H. destruct (add_block fuel now b n) as (r, n').
  destruct r as [[[]| |]|]; cbn [fst snd]; (split; [reflexivity|]); split; try (intros st Ne); split; intros E; try discriminate; auto; try (destruct E; discriminate); try (injection E as <-; reflexivity);
    exfalso; apply Ne; injection E as <-; reflexivity.
Qed.
Theorem C56_missing_asked fuel now c n x :
  let id k := ShortId_Create Blake2b SipHash24 (kernel_hash Blake2b k) (BlockHeader_GetHash (cb_header c)) (cb_nonce c) in
  on_chain (confirmed_now n) (h_height (cb_header c)) (BlockHeader_GetHash (cb_header c)) = false ->
  NoDup (map id (kernels_of (map e_tx (memPool (n_pool n))))) -> In x (cb_shortIds c) -> ~ In x (map id (kernels_of (map e_tx (memPool (n_pool n))))) ->
  add_compact fuel now c n = (Some (Ret Missing), n) /\ answer_to pool c Missing n = [AskBlock (BlockHeader_GetHash (cb_header c))].
Proof. cbv zeta. intros C N J K. split; [|reflexivity]. unfold AddCompactBlock. rewrite C, (C56_incomplete_noticed c _ x N J K). reflexivity. Qed.
End Node.

(** The blocks a miner assembles are made of their transactions. *)
Lemma assembled h ts rewards excesses ins outs :
  PerformCutThrough (flat_map (fun t => b_inputs (t_body t)) ts) (flat_map (fun t => b_outputs (t_body t)) ts ++ rewards) = (ins, outs) ->
  Forall (fun o => output_IsCoinbase o = true) rewards -> incl rewards outs -> Forall (fun k => kernel_IsCoinbase k = true) excesses ->
  made_of (mkBlock h (Body_sorted Blake2b ins outs (kernels_of ts ++ excesses))) ts.
Proof.
  intros P Fr Ir Fe. destruct (cut_through_kept _ _ _ _ P) as (P1 & P2). rewrite Forall_forall in Fr, Fe.
  assert (Sp : forall {A} (h : A -> bytes) l x, In x (sort_by h l) <-> In x l) by (intros A h0 l x; split; apply Permutation_in; [apply Permutation_sym|]; apply sort_perm).
  assert (Cr : forall o, In o (flat_map (fun t => b_outputs (t_body t)) ts ++ rewards) <->
    (exists t, In t ts /\ In o (b_outputs (t_body t))) \/ (In o (sort_by (output_hash Blake2b) outs) /\ output_IsCoinbase o = true)).
  { intros o. rewrite in_app_iff, in_flat_map, Sp. split; (intros [J|J]; [left; exact J|]).
    - right. split; [apply Ir, J|apply Fr, J].
    - destruct J as (J & _). apply P2 in J as (J & _). apply in_app_or in J as [J|J]; [left; apply in_flat_map, J|right; exact J]. }
  unfold made_of. cbn [fb_body Body_sorted b_inputs b_outputs b_kernels]. split; [|split].
  - intros i. rewrite Sp, P1, in_flat_map. split; intros (J & K); (split; [exact J|]); intros L; apply K.
    + destruct L as (o & L1 & L2). rewrite <- L2. apply in_map, Cr, L1.
    + apply in_map_iff in L as (o & L1 & L2). exists o. split; [apply Cr, L2|exact L1].
  - intros o. split; [intros J; apply Sp, P2 in J as (J & K)|intros (J & K); apply Sp, P2]; (split; [apply Cr, J|]); intros L; apply K.
    + destruct L as (i & L1 & L2). rewrite <- L2. apply in_map. apply in_flat_map. exact L1.
    + apply in_map_iff in L as (i & L1 & L2). exists i. split; [apply in_flat_map in L2; exact L2|exact L1].
  - intros k. rewrite Sp, in_app_iff, in_flat_map. split.
    + intros [J|J]; [left; exact J|right]. split; [right; exact J|apply Fe, J].
    + intros [J|(J & _)]; [left; exact J|exact J].
Qed.
Lemma distinct_free {A} (hash : A -> bytes) l l' : NoDup (map hash l') -> incl l l' -> collision_free hash l.
Proof. intros N I1 x y Jx Jy E. exact (map_inj hash l' x y N (I1 x Jx) (I1 y Jy) E). Qed.
End Props.

(** * A concrete network: the commitments of ValidationProps.v, the proof of work of HeaderProps.v, no check of the sums. *)
Definition toy_sip (k0 k1 : N) (d : bytes) : N := (be_value d + k0 + k1) mod (2 ^ 64 - 59).
Lemma toy_hash_bytes x : length (toy_hash x) = 32%nat /\ is_bytes (toy_hash x).
Proof. unfold toy_hash. split; [apply be_bytes_length|apply be_bytes_are_bytes]. Qed.
Definition kverify : FullBlock -> outcome unit := VerifySelfConsistent toy_hash ideal_range ideal_signed ideal_add coin MAINNET.
Definition kernel_of (fee n : N) : TransactionKernel := mkKernel 0 (mkFee 0 fee) 0 zero33 (repeat n 64).
Definition ctx (i o : list N) (ks : list TransactionKernel) : Transaction :=
  mkTx (repeat 0 32) (Body_sorted toy_hash (map (fun v => mkInput 0 (coin v)) i) (map (fun v => mkOutput 0 (coin v) []) o) ks).
(** The transactions of a block, with the coinbase outputs and kernel ([u] makes them new). *)
Definition rewards (fees u : N) : list TransactionOutput := [mkOutput 1 (coin (60000000000 + fees - u)) []; mkOutput 1 (coin u) []].
Definition excesses : list TransactionKernel := [mkKernel 1 (mkFee 0 0) 0 zero33 (repeat 9 64)].
Definition assemble (ts : list Transaction) (fees u : N) : TransactionBody :=
  let '(ins, outs) := PerformCutThrough (flat_map (fun t => b_inputs (t_body t)) ts) (flat_map (fun t => b_outputs (t_body t)) ts ++ rewards fees u) in
  Body_sorted toy_hash ins outs (flat_map (fun t => b_kernels (t_body t)) ts ++ excesses).
(** As BlockProps.bmine, with the given body. *)
Definition kmine (n : node unit) (parent : FullBlock) (seconds : Z) (body : TransactionBody) (a : N) : FullBlock :=
  let p := fb_header parent in
  let draft := mkHeader 1 (h_height p + 1) (h_timestamp p + seconds) (BlockHeader_GetHash p)
                 (BlockProps.get_ [] (HeaderRoot toy_hash (committed (s_mmr (n_chain n))) (h_height p))) [] [] [] [] 0 0 0 0 0 (mkPoW 24 DifficultyProps.small_nonces (BlockProps.id_ a)) in
  match now_ (n_set n), CalculateNextDifficulty (db_find (headers_db (n_chain n))) MAINNET draft with
  | Some s, Ret info =>
    match ApplyBlock toy_hash MAINNET (view n) (mkBlock draft body) s with
    | Ret (Some (s1, _)) =>
      let osize := GetSize (p_hash (m_pOutputPMMR s1)) in let ksize := GetSize (km_hash (m_pKernelMMR s1)) in
      mkBlock (mkHeader 1 (h_height draft) (h_timestamp draft) (h_previousBlockHash draft) (h_previousRoot draft)
                (BlockProps.get_ [] (Root toy_hash (p_hash (m_pOutputPMMR s1)) osize)) (BlockProps.get_ [] (Root toy_hash (p_hash (m_pRangeProofPMMR s1)) osize))
                (BlockProps.get_ [] (Root toy_hash (km_hash (m_pKernelMMR s1)) ksize)) [] osize ksize (h_totalDifficulty p + hi_difficulty info) (hi_secondaryScaling info) 0
                (h_proofOfWork draft)) body
    | _ => parent
    end
  | _, _ => parent
  end.
Definition knode0 : node unit := match first_start unit tt toy_hash BlockProps.ex_genesis BlockProps.ex_sums0 with Ret n => n | _ => BlockProps.ex_nothing end.
Definition kadd : FullBlock -> node unit -> option (outcome EBlockChainStatus) * node unit :=
  ProcessBlock unit BlockProps.no_pool toy_hash HeaderProps.no_bad MAINNET HeaderProps.ex_keys kverify BlockProps.ex_sums 10 HeaderProps.ex_now.
Definition kcompact (p : list entry) : CompactBlock -> node unit -> option (outcome compact_status) * node unit :=
  AddCompactBlock toy_hash toy_sip unit (fun _ => p) BlockProps.no_pool HeaderProps.no_bad MAINNET HeaderProps.ex_keys kverify BlockProps.ex_sums 10 HeaderProps.ex_now.

(** [k1] has the coins 100, 200 and 300. Three transactions with the same fee; one spends what another makes. *)
Definition ka : Transaction := ctx [100] [10] [kernel_of 90 1].
Definition kb : Transaction := ctx [200] [110] [kernel_of 90 2].
Definition kc : Transaction := ctx [300] [210] [kernel_of 90 3].
Definition kd : Transaction := ctx [110] [20] [kernel_of 90 4].
Definition k1 : FullBlock := Eval vm_compute in kmine knode0 BlockProps.ex_genesis 60 (assemble [ctx [] [100; 200; 300] []] 0 1) 1.
Definition knode1 : node unit := Eval vm_compute in snd (kadd k1 knode0).
Definition k2 : FullBlock := Eval vm_compute in kmine knode1 k1 60 (assemble [ka; kb] 180 2) 2.
Definition k2d : FullBlock := Eval vm_compute in kmine knode1 k1 60 (assemble [ka; kb; kd] 270 3) 3.
Definition pooled (ts : list Transaction) : list entry := map (fun t => mkEntry (mkPtr 0 t) FLUFFED 0%Z) ts.

Definition kac : Transaction := ctx [100; 300] [10; 210] [kernel_of 90 1; kernel_of 90 3].
Definition k2x : FullBlock := Eval vm_compute in kmine knode1 k1 60 (assemble [] 0 4) 4.
Definition k3 : FullBlock := Eval vm_compute in kmine (snd (kadd k2x knode1)) k2x 60 (assemble [ka; kb] 180 5) 5.
Definition admit_tx (n : node unit) (t : txptr) (p : txpool) : outcome EAddTransactionStatus * txpool :=
  AddTransaction toy_hash ideal_range ideal_signed ideal_add coin ideal_blinded MAINNET 1 90 (view n) (now_ (n_set n)) t MEMPOOL (fb_header k1) 50 p.
Definition kp1 := snd (admit_tx knode1 (mkPtr 1 ka) (mkPool [] [])).
Definition kp2 := snd (admit_tx knode1 (mkPtr 2 kac) kp1).
Definition cp2 := m_memPool kp2.
Definition kwrong : node unit := Eval vm_compute in snd (kcompact cp2 (CreateCompactBlock toy_hash toy_sip 7 k3) knode1).

Fixpoint distinctb (l : list bytes) : bool := match l with [] => true | x :: rest => negb (existsb (bytes_eqb x) rest) && distinctb rest end.
Lemma distinctb_ok l : distinctb l = true -> NoDup l.
Proof.
  induction l as [|x l IH]; [constructor|]. cbn [distinctb]. intros H. apply andb_true_iff in H as (H1 & H2). constructor; [|exact (IH H2)].
  intros J. apply mem_eqb in J. rewrite J in H1. discriminate H1.
Qed.
Definition toy_short (b : FullBlock) (nonce : N) (k : TransactionKernel) : bytes := ShortId_Create toy_hash toy_sip (kernel_hash toy_hash k) (BlockHeader_GetHash (fb_header b)) nonce.

(** The hypotheses of [C56_rebuilt_partial] hold for a block of three transactions, one of which spends the output of another, and a pool
    with one more; the node takes the compact block as it would the block. *)
Example C56_example :
  Hydrate toy_hash toy_sip (CreateCompactBlock toy_hash toy_sip 7 k2d) (pooled [kb; kd; kc; ka]) = Some k2d /\
  made_of k2d [ka; kb; kd] /\ length (b_inputs (fb_body k2d)) = 2%nat /\
  fst (kcompact (pooled [kb; kd; kc; ka]) (CreateCompactBlock toy_hash toy_sip 7 k2d) knode1) = Some (Ret (Status SUCCESS)) /\
  fst (kcompact (pooled [kb; kc; ka]) (CreateCompactBlock toy_hash toy_sip 7 k2d) knode1) = Some (Ret Missing).
Proof.
  assert (M : made_of k2d [ka; kb; kd]).
  { pose (pt := PerformCutThrough (flat_map (fun t => b_inputs (t_body t)) [ka; kb; kd]) (flat_map (fun t => b_outputs (t_body t)) [ka; kb; kd] ++ rewards 270 3)).
    replace k2d with (mkBlock (fb_header k2d) (Body_sorted toy_hash (fst pt) (snd pt) (flat_map (fun t => b_kernels (t_body t)) [ka; kb; kd] ++ excesses))) by (vm_compute; reflexivity).
    apply assembled with (rewards := rewards 270 3).
    - unfold pt. apply surjective_pairing.
    - repeat constructor.
    - vm_compute. intros o [J|[J|[]]]; subst o; tauto.
    - repeat constructor. }
  split; [|split; [exact M|split; [|split]; vm_compute; reflexivity]].
  apply (C56_rebuilt_partial toy_hash toy_sip toy_hash_bytes ideal_range ideal_signed ideal_add coin MAINNET 7 k2d [ka; kb; kd]).
  - vm_compute. reflexivity.
  - apply (NoDup_map_inv (kernel_hash toy_hash)). apply distinctb_ok. vm_compute. reflexivity.
  - exact M.
  - intros t J. destruct J as [J|[J|[J|[]]]]; subst t; cbn [map pooled e_tx e_ptr p_tx]; [right; right; right; left|left|right; left]; reflexivity.
  - repeat constructor; (eexists; split; [left; reflexivity|reflexivity]).
  - change (NoDup (map (toy_short k2d 7) (flat_map (fun t => b_kernels (t_body t)) (map e_tx (pooled [kb; kd; kc; ka]))))). apply distinctb_ok. vm_compute. reflexivity.
  - apply distinct_free with (l' := flat_map (fun t => b_inputs (t_body t)) [ka; kb; kd]); [apply distinctb_ok; vm_compute; reflexivity|apply incl_refl].
  - apply distinct_free with (l' := flat_map (fun t => b_outputs (t_body t)) [ka; kb; kd] ++ rewards 270 3); [apply distinctb_ok; vm_compute; reflexivity|].
    apply incl_app; [apply incl_appl, incl_refl|]. vm_compute. intros o J. tauto.
  - apply distinct_free with (l' := flat_map (fun t => b_kernels (t_body t)) [ka; kb; kd] ++ excesses); [apply distinctb_ok; vm_compute; reflexivity|].
    apply incl_app; [apply incl_appl, incl_refl|]. vm_compute. intros o J. tauto.
Qed.

(** In general the rebuilt block is another one than the sender's: with a pool that has a transaction and an aggregate of it with another
    (both were admitted), the kernel that was found twice stands for the one that is missing. The number of transactions is right, the
    block is consistent, and if it comes before its parent it waits with the wrong body in the place of the right one, which is then
    dismissed as known. *)
Theorem C56_wrong_body_refuted : exists p1 p b n n' b',
  (* the pool *)
  admit_tx n (mkPtr 1 ka) (mkPool [] []) = (Ret ADDED, p1) /\ admit_tx n (mkPtr 2 kac) p1 = (Ret ADDED, p) /\
  (* an honest block, added by a node that has its parent *)
  fst (kadd b (snd (kadd k2x n))) = Some (Ret SUCCESS) /\
  kcompact (m_memPool p) (CreateCompactBlock toy_hash toy_sip 7 b) n = (Some (Ret (Status ORPHANED)), n') /\
  n_orphans n' = [b'] /\ fb_header b' = fb_header b /\ kverify b' = Ret tt /\ fb_body b' <> fb_body b /\
  kadd b n' = (Some (Ret ALREADY_EXISTS), n').
Proof.
  exists kp1, kp2, k3, knode1, kwrong, (match n_orphans kwrong with x :: _ => x | [] => k1 end).
  split; [vm_compute; reflexivity|]. split; [vm_compute; reflexivity|]. split; [vm_compute; reflexivity|]. split; [vm_compute; reflexivity|]. split; [vm_compute; reflexivity|].
  split; [vm_compute; reflexivity|]. split; [vm_compute; reflexivity|]. split; [|vm_compute; reflexivity].
  intros E. apply (f_equal (fun x => map k_excessSignature (b_kernels x))) in E. vm_compute in E. discriminate E.
Qed.

(** A block may have the same kernel twice; then no pool is enough to rebuild it. *)
Definition ke : Transaction := ctx [200] [110] [kernel_of 90 1].
Definition k2e : FullBlock := Eval vm_compute in kmine knode1 k1 60 (assemble [ka; ke] 180 6) 6.
Theorem C56_repeated_kernel_refuted : exists b ts,
  kverify b = Ret tt /\ fb_body b = assemble ts 180 6 /\ length ts = 2%nat /\
  forall nonce p, Hydrate toy_hash toy_sip (CreateCompactBlock toy_hash toy_sip nonce b) p = None.
Proof.
  exists k2e, [ka; ke]. split; [vm_compute; reflexivity|]. split; [vm_compute; reflexivity|]. split; [reflexivity|]. intros nonce p.
  assert (F : filter (fun k => negb (kernel_IsCoinbase k)) (b_kernels (fb_body k2e)) = [kernel_of 90 1; kernel_of 90 1]) by (vm_compute; reflexivity).
  assert (C : cb_shortIds (CreateCompactBlock toy_hash toy_sip nonce k2e) = [toy_short k2e nonce (kernel_of 90 1); toy_short k2e nonce (kernel_of 90 1)]).
  { cbn [CreateCompactBlock cb_shortIds]. rewrite F. cbn [map]. unfold toy_short. generalize (ShortId_Create toy_hash toy_sip (kernel_hash toy_hash (kernel_of 90 1)) (BlockHeader_GetHash (fb_header k2e)) nonce). intros x.
    unfold sort_by. cbn [fold_right insert_by]. match goal with |- (if ?c then _ else _) = _ => destruct c end; reflexivity. }
  unfold Hydrate. rewrite C. cbn [length]. set (x := toy_short k2e nonce (kernel_of 90 1)). assert (Is : id_set [x; x] = [x]) by (clearbody x; cbn; rewrite bytes_eqb_refl; reflexivity). rewrite Is.
  assert (One : forall id_of l, (length (find_short_ids id_of [x] [] l) <= 1)%nat).
  { intros id_of l. induction l as [|(t, k) l IH]; [cbn; lia|]. cbn [find_short_ids]. destruct (existsb _ _); [cbn; lia|exact IH]. }
  unfold GetTransactionsByShortId. match goal with |- context [find_short_ids ?f _ _ ?l] => specialize (One f l); destruct (length (find_short_ids f [x] [] l)) as [|[|]]; [reflexivity|reflexivity|lia] end.
Qed.

Definition compact_theorems := (@C56_rebuilt_partial, @C56_incomplete_noticed, @C56_only_blocks, @C56_as_full, @C56_missing_asked, C56_example, C56_wrong_body_refuted, C56_repeated_kernel_refuted, @assembled).
Print Assumptions compact_theorems.
