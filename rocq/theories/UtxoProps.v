(** C19, C20 and C47: the output set. *)
From Verif Require Import Base Bytes MMRIndexModel MMRHashModel MMRHashSpec MMRHashProofs MMRHashProps FileModel BitmapModel BitmapProofs SerialModel
  CodecModel ConsensusModel UtxoModel UtxoSpec UtxoProofs UtxoRewind UtxoRoots.
Local Open Scope N_scope.

(** A new node is a start: the genesis coin is in the set, but cannot be found by its commitment. *)
Theorem C20_fresh_node H genesis s0 d0 : fresh_node H genesis s0 d0 -> start H 1 (genesis_ledger genesis) (fb_header genesis) s0 d0.
Proof.
  intros (Lk & Lo & (W & _) & Zo & Zk & E & P & T).
  destruct (b_kernels (fb_body genesis)) as [|k [|]] eqn:Ek; try discriminate Lk. destruct (b_outputs (fb_body genesis)) as [|o [|]] eqn:Eo; try discriminate Lo.
  inversion W as [|? ? (W1 & W2) _]; subst. destruct (fresh_ok H genesis k o d0 Ek Eo (conj W1 W2) P) as (s & E' & R & Hd & S1 & S2).
  rewrite E in E'. apply Ret_inj in E'. subst s. unfold genesis_ledger. rewrite Ek, Eo. cbn [map].
  constructor; [exact R|exact Hd|exact T| |].
  - split; congruence.
  - split; reflexivity.
Qed.

(** From a set that represents a ledger, a block is applied exactly if the ledger allows it: every input takes a different unspent,
    mature coin with its commitment and no output repeats the commitment of an unspent coin. The new set represents the new ledger. *)
Theorem C20_apply_exact H env g l s d b :
  represents H g l s d -> well_formed b ->
  N.of_nat (length (l_outs l) + length (b_outputs (fb_body b))) < 2 ^ 62 -> N.of_nat (length (l_kernels l) + length (b_kernels (fb_body b))) < 2 ^ 62 ->
  (forall s' d', ApplyBlock H env d b s = Ret (Some (s', d')) -> exists l', applies env g b l l' /\ represents H g l' s' d') /\
  (forall l', applies env g b l l' -> exists s' d', ApplyBlock H env d b s = Ret (Some (s', d')) /\ represents H g l' s' d') /\
  (~ (exists l', applies env g b l l') -> NoDup (map i_commitment (b_inputs (fb_body b))) -> ApplyBlock H env d b s = Ret None).
Proof.
  intros R W F1 F2. pose proof (apply_ok H env g l s d b R W (conj F1 F2)) as X.
  assert (Y : forall s' d' l' is o, spends_at env g (h_height (fb_header b)) (b_inputs (fb_body b)) is (l_outs l) o ->
      creates g (h_height (fb_header b)) (b_outputs (fb_body b)) o (l_outs l') -> l_kernels l' = l_kernels l ++ b_kernels (fb_body b) ->
      represents H g l' s' d' -> applies env g b l l' /\ forall l2, applies env g b l l2 -> l2 = l').
  { intros s' d' l' is o S C K _. split; [split; [exists o; split; [apply (spends_at_spends env g _ _ is), S|exact C]|exact K]|].
    intros l2 ((o2 & S2 & C2) & K2). apply spends_spends_at in S2 as (is2 & S2).
    rewrite (spends_at_fun env g _ _ _ d (rep_index _ _ _ _ _ R) _ _ _ _ S2 S) in C2. apply creates_eq in C. apply creates_eq in C2.
    destruct l2 as (a, k2), l' as (a', k'). cbn [l_outs l_kernels] in *. congruence. }
  destruct (ApplyBlock H env d b s) as [[(s1, d1)|]| |].
  - destruct X as (l' & is & o & S & C & K & R' & _). destruct (Y s1 d1 l' is o S C K R') as (A & U). split; [|split].
    + intros s' d' E. apply Ret_inj, some_inj in E. injection E as <- <-. exists l'. auto.
    + intros l2 A2. exists s1, d1. split; [reflexivity|]. rewrite (U l2 A2). exact R'.
    + intros N. destruct N. exists l'. exact A.
  - split; [discriminate|]. split; [|reflexivity]. intros l' A. destruct X. exists l'. exact A.
  - destruct X.
  - destruct X as (X1 & X2). split; [discriminate|]. split; [intros l' A; destruct X1; exists l'; exact A|]. intros _ N. contradiction.
Qed.

(** The same through the queries of the API: an applied block's inputs were all found and unspent before, with their commitments, and
    mature; afterwards none of them is found any more, and every output of the block is found and unspent. *)
Theorem C20_inputs_gone_outputs_present H env g l s d b s' d' :
  represents H g l s d -> well_formed b ->
  N.of_nat (length (l_outs l) + length (b_outputs (fb_body b))) < 2 ^ 62 -> N.of_nat (length (l_kernels l) + length (b_kernels (fb_body b))) < 2 ^ 62 ->
  ApplyBlock H env d b s = Ret (Some (s', d')) ->
  (forall x, In x (b_inputs (fb_body b)) -> exists loc f, GetOutputPosition d (i_commitment x) = Some loc /\
     Output_GetAt s (loc_leaf loc) = Ret (Some (mkOutputId f (i_commitment x))) /\
     (N.testbit f 0 = true -> loc_height loc = 0 \/ loc_height loc + maturity env <= h_height (fb_header b)) /\
     GetOutputPosition d' (i_commitment x) = None /\ Output_GetAt s' (loc_leaf loc) = Ret None) /\
  (forall x, In x (b_outputs (fb_body b)) -> exists loc, GetOutputPosition d' (o_commitment x) = Some loc /\
     loc_height loc = h_height (fb_header b) /\ Output_GetAt s' (loc_leaf loc) = Ret (Some (mkOutputId (o_features x) (o_commitment x)))) /\
  (forall c, ~ In c (map i_commitment (b_inputs (fb_body b))) -> ~ In c (map o_commitment (b_outputs (fb_body b))) ->
     GetOutputPosition d' c = GetOutputPosition d c) /\
  NoDup (map i_commitment (b_inputs (fb_body b))) /\ NoDup (map o_commitment (b_outputs (fb_body b))).
Proof. exact (applied_view H env g l s d b s' d'). Qed.

(** A transaction is accepted against the set exactly if its inputs name unspent coins that are mature in the next block, and no output
    repeats an unspent commitment. *)
Theorem C20_transaction_exact H env g l s d t :
  represents H g l s d -> room l -> h_height (m_pBlockHeader s) + 1 < W64 ->
  (IsValid env d s t = Ret true <->
    Forall (fun x => exists i c, (g <= i)%nat /\ nth_error (l_outs l) i = Some (c, true) /\ c_commitment c = i_commitment x /\
                                 mature env c (h_height (m_pBlockHeader s) + 1)) (b_inputs (t_body t)) /\
    Forall (fun x => forall i c, (g <= i)%nat -> nth_error (l_outs l) i = Some (c, true) -> c_commitment c <> o_commitment x) (b_outputs (t_body t))) /\
  (IsValid env d s t = Ret true \/ IsValid env d s t = Ret false).
Proof.
  intros R Rm L. unfold IsValid. rewrite add64_small by exact L.
  destruct (valid_inputs_ok H env g l s d (h_height (m_pBlockHeader s) + 1) (b_inputs (t_body t)) R Rm) as (r & E & Q). rewrite E. cbn [obind].
  destruct (valid_outputs_ok H g l s d (b_outputs (t_body t)) R Rm) as (r2 & E2 & Q2). destruct r.
  - rewrite E2. split; [|destruct r2; auto]. rewrite <- Q, <- Q2. split; [intros A; apply Ret_inj in A; auto|intros (_ & A); rewrite A; reflexivity].
  - split; [|auto]. rewrite <- Q. split; [discriminate|intros (A & _); discriminate A].
Qed.

(** After any sequence of applied and rewound blocks the set represents the ledger of the blocks that remain, and nothing else. *)
Theorem C19_history_ledger H env g l0 base s0 d0 chain s d :
  start H g l0 base s0 d0 -> history H env base s0 d0 chain s d ->
  exists l, chain_ledger env g l0 chain l /\ represents H g l s d /\ m_pBlockHeader s = tip base chain.
Proof. intros [A B C D E]. exact (history_ledger H env g base l0 s0 d0 A B C D E chain s d). Qed.

(** So it does not matter how it was reached: files, leaf sets (hence sizes and roots) and positions are the same. *)
Theorem C19_path_independent H env g l0 base s0 d0 chain s d s' d' :
  start H g l0 base s0 d0 -> history H env base s0 d0 chain s d -> history H env base s0 d0 chain s' d' ->
  same_set s s' /\ same_positions d d'.
Proof. intros [A B C D E]. exact (history_same H env g base l0 s0 d0 A B C D E chain s d s' d'). Qed.

(** Rewinding to any block of the chain always succeeds and gives back the set of that block. *)
Theorem C19_rewind H env g l0 base s0 d0 chain undone s d s1 d1 fuel :
  start H g l0 base s0 d0 -> history H env base s0 d0 chain s1 d1 -> history H env base s0 d0 (chain ++ undone) s d ->
  (length undone <= fuel)%nat ->
  exists s' d', Rewind fuel (tip base chain) s d = Some (Ret (s', d')) /\ same_set s1 s' /\ same_positions d1 d'.
Proof.
  intros [A B C D E] H1 H2 L. destruct (history_rewind_total H env g base l0 s0 d0 A B C D E chain undone s d fuel H2 L) as (s' & d' & R).
  exists s', d'. split; [exact R|]. apply (history_same H env g base l0 s0 d0 A B C D E chain); [exact H1|]. exact (history_rewind _ _ _ _ _ _ _ _ _ _ _ _ H2 R).
Qed.
Theorem C19_apply_then_rewind H env g l s d b sums s' d' :
  start H g l (m_pBlockHeader s) s d -> well_formed b ->
  N.of_nat (length (l_outs l) + length (b_outputs (fb_body b))) < 2 ^ 62 -> N.of_nat (length (l_kernels l) + length (b_kernels (fb_body b))) < 2 ^ 62 ->
  h_previousBlockHash (fb_header b) = BlockHeader_GetHash (m_pBlockHeader s) ->
  BlockHeader_GetHash (fb_header b) <> BlockHeader_GetHash (m_pBlockHeader s) ->
  ApplyBlock H env d b s = Ret (Some (s', d')) -> honest_sizes s' (fb_header b) ->
  exists s'' d'', Rewind 1 (m_pBlockHeader s) s' (store_block b sums d') = Some (Ret (s'', d'')) /\ same_set s s'' /\ same_positions d d''.
Proof.
  intros St W F1 F2 P N A Z.
  assert (H1 : history H env (m_pBlockHeader s) s d [] s d) by constructor.
  assert (H2 : history H env (m_pBlockHeader s) s d ([] ++ [b]) s' (store_block b sums d')).
  { apply (history_apply H env (m_pBlockHeader s) s d [] s d b sums s' d'); try assumption.
    - cbn. intros [J|[]]. congruence.
    - rewrite (proj1 (rep_outputs _ _ _ _ _ (start_rep _ _ _ _ _ _ St))). unfold output_records. rewrite map_length. exact F1.
    - rewrite (proj1 (rep_kernels _ _ _ _ _ (start_rep _ _ _ _ _ _ St))). unfold kernel_records. rewrite map_length. exact F2. }
  exact (C19_rewind H env g l (m_pBlockHeader s) s d [] [b] s' (store_block b sums d') s d 1 St H1 H2 (le_n _)).
Qed.

(** C47. A header whose sizes are those of the files is accepted exactly if its roots are those of the ledger's mountain ranges. *)
Theorem C47_roots_exact H g l s d h :
  (forall m, H m <> repeat 0 32) -> represents H g l s d -> room l -> honest_sizes s h ->
  exists kernels outputs proofs bits,
    is_mmr kernels (kernel_records (l_kernels l)) /\ is_mmr outputs (output_records (l_outs l)) /\ is_mmr proofs (proof_records (l_outs l)) /\
    is_mmr bits (leafset_chunks (p_leaf (m_pOutputPMMR s)) (N.of_nat (length (l_outs l)))) /\
    (ValidateRoots H s h = Ret true <->
      h_kernelRoot h = mmr_root H kernels /\ h_rangeProofRoot h = mmr_root H proofs /\
      h_outputRoot h = (if h_version h <? 3 then mmr_root H outputs else H (be_bytes 8 (h_outputMMRSize h) ++ mmr_root H outputs ++ mmr_root H bits))).
Proof.
  intros HZ R Rm Z. destruct (validate_ok H HZ g l s d h R Rm Z) as (a & b & c & e & A & B & C & D & _ & V & _). exists a, b, c, e. auto.
Qed.
(** Two output sets that accept the same header hold the same coins and kernels, and (from version 3 on) the same coins are unspent in
    both, unless two different byte strings with the same hash are found. *)
Theorem C47_header_commits_to_set H g1 g2 l1 l2 s1 s2 d1 d2 h :
  (forall m, length (H m) = 32%nat) -> (forall m, H m <> repeat 0 32) ->
  represents H g1 l1 s1 d1 -> represents H g2 l2 s2 d2 -> room l1 -> room l2 ->
  honest_sizes s1 h -> honest_sizes s2 h -> ValidateRoots H s1 h = Ret true -> ValidateRoots H s2 h = Ret true ->
  (kernel_records (l_kernels l1) = kernel_records (l_kernels l2) /\ output_records (l_outs l1) = output_records (l_outs l2) /\
   proof_records (l_outs l1) = proof_records (l_outs l2) /\ (3 <= h_version h -> map snd (l_outs l1) = map snd (l_outs l2))) \/
  exists m m', m <> m' /\ H m = H m'.
Proof. intros HL HZ. exact (header_binds H HL HZ g1 g2 l1 l2 s1 s2 d1 d2 h). Qed.

(** * A concrete chain *)
Definition cm (n : N) : bytes := repeat n 33.
Definition hs (n : N) : bytes := repeat n 32.
Definition ex_out (f n : N) : TransactionOutput := mkOutput f (cm n) [n].
Definition ex_kernel (n : N) : TransactionKernel := mkKernel 0 (mkFee 0 n) 0 (cm n) (repeat n 64).
Definition ex_header (height prev own osize ksize : N) : BlockHeader :=
  mkHeader 5 height 0 (hs prev) (hs 0) (hs 0) (hs 0) (hs 0) (hs 0) osize ksize 1 1 0 (mkPoW 31 [] (hs own)).
Definition ex_block (height prev own osize ksize : N) (i : list N) (o : list TransactionOutput) : FullBlock :=
  mkBlock (ex_header height prev own osize ksize) (mkBody (map (fun n => mkInput 0 (cm n)) i) o [ex_kernel own]).
Definition ex_genesis : FullBlock := ex_block 0 0 1 1 1 [] [ex_out 1 100].
Definition ex_db : blockdb := mkDB [] [(hs 1, fb_header ex_genesis)] [] [] [].
Definition nothing : txhashset := mkSet (mkKmmr [] []) (mkPmmr [] [] (BF_Load [])) (mkPmmr [] [] (BF_Load [])) (fb_header ex_genesis).
Definition ex_s0 : txhashset := match Open_fresh toy_hash ex_genesis with Ret s => s | _ => nothing end.
Definition ex_apply (b : FullBlock) (x : txhashset * blockdb) : txhashset * blockdb :=
  match ApplyBlock toy_hash AUTOMATED_TESTING (snd x) b (fst x) with Ret (Some (s, d)) => (s, store_block b (mkSums [] []) d) | _ => x end.
Definition ex_b1 : FullBlock := ex_block 1 1 2 4 3 [] [ex_out 0 101; ex_out 1 102].
Definition ex_b2 : FullBlock := ex_block 2 2 3 7 4 [101] [ex_out 0 103].
Definition ex_b2' : FullBlock := ex_block 2 2 4 8 4 [101] [ex_out 0 104; ex_out 0 105].
Definition ex_x1 := ex_apply ex_b1 (ex_s0, ex_db).
Definition ex_x2 := ex_apply ex_b2 ex_x1.
Definition ex_x2' := ex_apply ex_b2' ex_x1.

Lemma ex_history_step chain x b : history toy_hash AUTOMATED_TESTING (fb_header ex_genesis) ex_s0 ex_db chain (fst x) (snd x) ->
  h_previousBlockHash (fb_header b) = BlockHeader_GetHash (tip (fb_header ex_genesis) chain) ->
  ~ In (BlockHeader_GetHash (fb_header b)) (map BlockHeader_GetHash (fb_header ex_genesis :: map fb_header chain)) ->
  well_formed b -> (match ApplyBlock toy_hash AUTOMATED_TESTING (snd x) b (fst x) with Ret (Some _) => true | _ => false end) = true ->
  honest_sizes (fst (ex_apply b x)) (fb_header b) ->
  N.of_nat (length (p_data (m_pOutputPMMR (fst x))) + length (b_outputs (fb_body b))) < 2 ^ 62 ->
  N.of_nat (length (km_data (m_pKernelMMR (fst x))) + length (b_kernels (fb_body b))) < 2 ^ 62 ->
  history toy_hash AUTOMATED_TESTING (fb_header ex_genesis) ex_s0 ex_db (chain ++ [b]) (fst (ex_apply b x)) (snd (ex_apply b x)).
Proof.
  intros Hi P F W A Z R1 R2. unfold ex_apply in *. destruct (ApplyBlock toy_hash AUTOMATED_TESTING (snd x) b (fst x)) as [[(s, d)|]| |] eqn:E; try discriminate A.
  cbn [fst snd] in *. exact (history_apply _ _ _ _ _ chain _ _ b (mkSums [] []) s d Hi P F W E Z R1 R2).
Qed.
Lemma ex_wf height prev own osize ksize i o :
  forallb (fun x => (o_features x <? 256) && (length (o_commitment x) =? 33)%nat) o &&
  forallb (fun n => forallb (fun x => negb (bytes_eqb (cm n) (o_commitment x))) o) i = true -> well_formed (ex_block height prev own osize ksize i o).
Proof.
  intros E. apply andb_true_iff in E as (E1 & E2). split; cbn [ex_block fb_body b_outputs b_inputs].
  - apply Forall_forall. intros x J. rewrite forallb_forall in E1. specialize (E1 x J). apply andb_true_iff in E1 as (A & B). apply N.ltb_lt in A. apply Nat.eqb_eq in B. auto.
  - intros x y Jx Jy. apply in_map_iff in Jx as (n & <- & Jn). cbn [i_commitment]. rewrite forallb_forall in E2. specialize (E2 n Jn). rewrite forallb_forall in E2.
    specialize (E2 y Jy). apply negb_true_iff in E2. apply bytes_eqb_false in E2. exact E2.
Qed.
Ltac distinct := cbn; intros J; repeat (destruct J as [J|J]; [discriminate J|]); exact J.
Example ex_fresh : fresh_node toy_hash ex_genesis ex_s0 ex_db.
Proof. repeat split; try (vm_compute; reflexivity); apply (ex_wf 0 0 1 1 1 [] [ex_out 1 100]); vm_compute; reflexivity. Qed.
Example ex_history1 : history toy_hash AUTOMATED_TESTING (fb_header ex_genesis) ex_s0 ex_db [ex_b1] (fst ex_x1) (snd ex_x1).
Proof.
  apply (ex_history_step [] (ex_s0, ex_db) ex_b1); [constructor|reflexivity|distinct|apply ex_wf; vm_compute; reflexivity|vm_compute; reflexivity| | |];
    [split; vm_compute; reflexivity|vm_compute; reflexivity|vm_compute; reflexivity].
Qed.
Example ex_history2 : history toy_hash AUTOMATED_TESTING (fb_header ex_genesis) ex_s0 ex_db [ex_b1; ex_b2] (fst ex_x2) (snd ex_x2).
Proof.
  apply (ex_history_step [ex_b1] ex_x1 ex_b2); [exact ex_history1|reflexivity|distinct|apply ex_wf; vm_compute; reflexivity|vm_compute; reflexivity| | |];
    [split; vm_compute; reflexivity|vm_compute; reflexivity|vm_compute; reflexivity].
Qed.
(** A reorganisation: the second block is rewound and another one applied. Coin 101 is spent in both, and back in between. *)
Example C19_example : exists s d, Rewind 1 (fb_header ex_b1) (fst ex_x2) (snd ex_x2) = Some (Ret (s, d)) /\
  GetOutputPosition (snd ex_x2) (cm 101) = None /\ GetOutputPosition d (cm 101) = Some (mkLoc (LeafIndex_At 1) 1) /\ GetOutputPosition d (cm 103) = None /\
  same_set (fst ex_x1) s /\ same_positions (snd ex_x1) d.
Proof.
  destruct (C19_rewind toy_hash AUTOMATED_TESTING 1 _ _ _ _ [ex_b1] [ex_b2] _ _ _ _ 1 (C20_fresh_node _ _ _ _ ex_fresh) ex_history1 ex_history2 (le_n _))
    as (s & d & E & S & P).
  exists s, d. split; [exact E|]. split; [vm_compute; reflexivity|]. split; [|split; [|split; [exact S|exact P]]].
  - rewrite <- (P (cm 101)). vm_compute. reflexivity.
  - rewrite <- (P (cm 103)). vm_compute. reflexivity.
Qed.
(** What the theorems say about it: a fresh block is applied or refused as the ledger says. *)
Example C20_example :
  (exists l, represents toy_hash 1 l (fst ex_x2) (snd ex_x2) /\ map (fun e => (hd 0 (c_commitment (fst e)), snd e)) (l_outs l) =
     [(100, true); (101, false); (102, true); (103, true)]) /\
  (exists x, ApplyBlock toy_hash AUTOMATED_TESTING (snd ex_x2) (ex_block 26 3 5 8 5 [102] [ex_out 0 106]) (fst ex_x2) = Ret (Some x)) /\
  ApplyBlock toy_hash AUTOMATED_TESTING (snd ex_x2) (ex_block 25 3 5 8 5 [102] [ex_out 0 106]) (fst ex_x2) = Ret None /\
  ApplyBlock toy_hash AUTOMATED_TESTING (snd ex_x2) (ex_block 26 3 5 8 5 [101] [ex_out 0 106]) (fst ex_x2) = Ret None /\
  ApplyBlock toy_hash AUTOMATED_TESTING (snd ex_x2) (ex_block 26 3 5 8 5 [103] [ex_out 0 102]) (fst ex_x2) = Ret None.
Proof.
  split; [|split; [|split; [|split]]]; [|vm_compute; eexists; reflexivity|vm_compute; reflexivity|vm_compute; reflexivity|vm_compute; reflexivity].
  destruct (C19_history_ledger toy_hash AUTOMATED_TESTING 1 _ _ _ _ _ _ _ (C20_fresh_node _ _ _ _ ex_fresh) ex_history2) as (l & _ & R & _).
  exists l. split; [exact R|]. destruct l as (o, ks). pose proof (proj1 (rep_outputs _ _ _ _ _ R)) as E. pose proof (proj1 (leafset_flags _ _) (rep_leaf_o _ _ _ _ _ R)) as F.
  cbn [l_outs] in *. assert (A : map (fun e => tl (c_features (fst e) :: c_commitment (fst e))) o = [cm 100; cm 101; cm 102; cm 103]).
  { rewrite <- (map_map (fun e => c_features (fst e) :: c_commitment (fst e)) (@tl N)). fold (output_records o). rewrite <- E. vm_compute. reflexivity. }
  destruct o as [|(c0, f0) [|(c1, f1) [|(c2, f2) [|(c3, f3) [|]]]]]; try discriminate A. cbn [map tl fst snd] in *. injection A as A0 A1 A2 A3.
  rewrite A0, A1, A2, A3.
  assert (B0 : f0 = true) by (change f0 with (nth (N.to_nat 0) [f0; f1; f2; f3] false); rewrite <- F; vm_compute; reflexivity).
  assert (B1 : f1 = false) by (change f1 with (nth (N.to_nat 1) [f0; f1; f2; f3] false); rewrite <- F; vm_compute; reflexivity).
  assert (B2 : f2 = true) by (change f2 with (nth (N.to_nat 2) [f0; f1; f2; f3] false); rewrite <- F; vm_compute; reflexivity).
  assert (B3 : f3 = true) by (change f3 with (nth (N.to_nat 3) [f0; f1; f2; f3] false); rewrite <- F; vm_compute; reflexivity).
  rewrite B0, B1, B2, B3. reflexivity.
Qed.

(** * What fails *)
(** ApplyBlock itself does not refuse a block that names one coin twice: the second time the null output is dereferenced (the check is an
    assert, TxHashSetImpl.cpp:118). Validation does not exclude such bodies when the two inputs differ in their feature byte
    (C46_spent_once_refuted), as here. *)
Theorem C20_duplicate_input_refuted :
  exists s d b, (exists chain, history toy_hash AUTOMATED_TESTING (fb_header ex_genesis) ex_s0 ex_db chain s d) /\ well_formed b /\
    ApplyBlock toy_hash AUTOMATED_TESTING d b s = Fault.
Proof.
  exists (fst ex_x1), (snd ex_x1), (mkBlock (ex_header 2 2 3 7 4) (mkBody [mkInput 0 (cm 101); mkInput 1 (cm 101)] [ex_out 0 103] [ex_kernel 3])).
  split; [exists [ex_b1]; exact ex_history1|].
  split; [|vm_compute; reflexivity]. split; [repeat constructor; vm_compute; reflexivity|].
  intros x o [<-|[<-|[]]] [<-|[]]; discriminate.
Qed.
(** On a node that started from the genesis block, the unspent genesis coin cannot be spent: its position was never stored. *)
Theorem C20_genesis_coin_refuted :
  fresh_node toy_hash ex_genesis ex_s0 ex_db /\
  Output_GetAt ex_s0 (LeafIndex_At 0) = Ret (Some (mkOutputId 1 (cm 100))) /\
  ApplyBlock toy_hash AUTOMATED_TESTING ex_db (ex_block 1 1 2 3 3 [100] [ex_out 0 101]) ex_s0 = Ret None.
Proof. split; [exact ex_fresh|]. split; vm_compute; reflexivity. Qed.
(** A block that spends a coin and creates one with the same commitment leaves a coin that nobody can find (RemoveOutputPositions runs
    after the outputs are added). Cut-through excludes such blocks (C46). *)
Theorem C20_respend_refuted :
  let b := ex_block 2 2 3 7 4 [101] [ex_out 0 101] in
  exists s d, ApplyBlock toy_hash AUTOMATED_TESTING (snd ex_x1) b (fst ex_x1) = Ret (Some (s, d)) /\
    Output_GetAt s (LeafIndex_At 3) = Ret (Some (mkOutputId 0 (cm 101))) /\ GetOutputPosition d (cm 101) = None.
Proof.
  cbv zeta. destruct (ApplyBlock toy_hash AUTOMATED_TESTING (snd ex_x1) (ex_block 2 2 3 7 4 [101] [ex_out 0 101]) (fst ex_x1)) as [[(s, d)|]| |] eqn:E;
    [|vm_compute in E; discriminate E|vm_compute in E; discriminate E|vm_compute in E; discriminate E].
  exists s, d. split; [reflexivity|]. vm_compute in E. injection E as <- <-. split; vm_compute; reflexivity.
Qed.

(** The sizes in a header are never compared with those of the files (TxHashSetImpl.cpp:165-193), so a header may commit to the set
    before its own block. [lie] has the sizes and the roots of the genesis block's MMRs, and the leaf set after the block. *)
Definition or_nil (r : outcome bytes) : bytes := match r with Ret x => x | _ => [] end.
Definition lie_header : BlockHeader :=
  let s := fst ex_x1 in
  mkHeader 5 1 0 (hs 1) (hs 0)
    (HashParentWithIndex toy_hash (or_nil (Root toy_hash (p_hash (m_pOutputPMMR s)) 1)) (or_nil (LeafSet_Root toy_hash (p_leaf (m_pOutputPMMR s)) 1)) 1)
    (or_nil (Root toy_hash (p_hash (m_pRangeProofPMMR s)) 1)) (or_nil (Root toy_hash (km_hash (m_pKernelMMR s)) 1)) (hs 0) 1 1 1 1 0 (mkPoW 31 [] (hs 2)).
Definition lie (o : list TransactionOutput) : FullBlock := mkBlock lie_header (mkBody [] o [ex_kernel 2]).
Definition lie_x (o : list TransactionOutput) := ex_apply (lie o) (ex_s0, ex_db).
(** One header, two blocks with different outputs, both accepted. *)
Theorem C47_unchecked_sizes_refuted :
  let o1 := [ex_out 0 101; ex_out 1 102] in let o2 := [ex_out 0 111; ex_out 1 112] in
  fresh_node toy_hash ex_genesis ex_s0 ex_db /\
  (forall o, In o [o1; o2] -> well_formed (lie o) /\ exists s d,
     ApplyBlock toy_hash AUTOMATED_TESTING ex_db (lie o) ex_s0 = Ret (Some (s, d)) /\ ValidateRoots toy_hash s (fb_header (lie o)) = Ret true /\
     p_data (m_pOutputPMMR s) = map (fun x => o_features x :: o_commitment x) (ex_out 1 100 :: o)) /\
  fb_header (lie o1) = fb_header (lie o2).
Proof.
  cbv zeta. split; [exact ex_fresh|]. split; [|reflexivity].
  intros o J. assert (W : well_formed (lie o)).
  { destruct J as [<-|[<-|[]]]; (split; [repeat constructor; vm_compute; reflexivity|intros x y []]). }
  split; [exact W|]. destruct (ApplyBlock toy_hash AUTOMATED_TESTING ex_db (lie o) ex_s0) as [[(s, d)|]| |] eqn:E.
  - exists s, d. split; [reflexivity|]. destruct J as [<-|[<-|[]]]; vm_compute in E; injection E as <- <-; split; vm_compute; reflexivity.
  - destruct J as [<-|[<-|[]]]; vm_compute in E; discriminate E.
  - destruct J as [<-|[<-|[]]]; vm_compute in E; discriminate E.
  - destruct J as [<-|[<-|[]]]; vm_compute in E; discriminate E.
Qed.
(** And rewinding to such a block loses its coins: Rewind cuts the files at the header's sizes. *)
Theorem C19_unchecked_sizes_refuted :
  let x1 := lie_x [ex_out 0 101; ex_out 1 102] in let x2 := ex_apply ex_b2 x1 in
  ValidateRoots toy_hash (fst x1) (m_pBlockHeader (fst x1)) = Ret true /\ m_pBlockHeader (fst x2) = fb_header ex_b2 /\
  exists s d, Rewind 1 (m_pBlockHeader (fst x1)) (fst x2) (snd x2) = Some (Ret (s, d)) /\
    length (p_data (m_pOutputPMMR (fst x1))) = 3%nat /\ length (p_data (m_pOutputPMMR s)) = 1%nat /\
    GetOutputPosition d (cm 102) = GetOutputPosition (snd x1) (cm 102) /\ Output_GetAt s (LeafIndex_At 2) = Ret None.
Proof.
  cbv zeta. split; [vm_compute; reflexivity|]. split; [vm_compute; reflexivity|].
  destruct (Rewind 1 (m_pBlockHeader (fst (lie_x [ex_out 0 101; ex_out 1 102]))) (fst (ex_apply ex_b2 (lie_x [ex_out 0 101; ex_out 1 102]))) (snd (ex_apply ex_b2 (lie_x [ex_out 0 101; ex_out 1 102]))))
    as [[(s, d)| |]|] eqn:E; [|vm_compute in E; discriminate E|vm_compute in E; discriminate E|vm_compute in E; discriminate E].
  exists s, d. split; [reflexivity|]. vm_compute in E. injection E as <- <-. repeat split; vm_compute; reflexivity.
Qed.

(** A header with honest sizes and roots, accepted. *)
Example C47_example : exists h, honest_sizes (fst ex_x2) h /\ ValidateRoots toy_hash (fst ex_x2) h = Ret true /\ h_version h = 5.
Proof.
  exists (let s := fst ex_x2 in mkHeader 5 1 0 (hs 1) (hs 0)
    (HashParentWithIndex toy_hash (or_nil (Root toy_hash (p_hash (m_pOutputPMMR s)) 7)) (or_nil (LeafSet_Root toy_hash (p_leaf (m_pOutputPMMR s)) 4)) 7)
    (or_nil (Root toy_hash (p_hash (m_pRangeProofPMMR s)) 7)) (or_nil (Root toy_hash (km_hash (m_pKernelMMR s)) 4)) (hs 0) 7 4 1 1 0 (mkPoW 31 [] (hs 2))).
  split; [split; vm_compute; reflexivity|]. split; vm_compute; reflexivity.
Qed.

Definition utxo_theorems := (@C20_fresh_node, @C20_apply_exact, @C20_inputs_gone_outputs_present, @C20_transaction_exact, @C19_history_ledger, @C19_path_independent,
  @C19_rewind, @C19_apply_then_rewind, @C47_roots_exact, @C47_header_commits_to_set, C20_duplicate_input_refuted, C20_genesis_coin_refuted, C20_respend_refuted,
  C47_unchecked_sizes_refuted, C19_unchecked_sizes_refuted).
Print Assumptions utxo_theorems.
