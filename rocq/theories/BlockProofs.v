(** Proofs about block processing. *)
From Verif Require Import Base Bytes MMRIndexModel MMRHashModel CodecModel ConsensusModel CuckooModel CacheModel HeaderModel HeaderSpec HeaderProofs HeaderInv
  ValidationModel UtxoModel UtxoSpec UtxoProofs UtxoRewind UtxoRoots BlockModel BlockSpec BlockHeaders.
Local Open Scope N_scope.
Arguments n_chain {pool}. Arguments n_db {pool}. Arguments n_set {pool}. Arguments n_orphans {pool}. Arguments n_pool {pool}.
Arguments view {pool}. Arguments confirmed_now {pool}. Arguments fork {pool}. Arguments DetermineBlockStatus {pool}. Arguments confirmed_difficulty {pool}.
Arguments commit_all {pool}. Arguments rollback_all {pool}. Arguments set_chain {pool}. Arguments set_bdb {pool}. Arguments set_set {pool}.
Arguments set_blocks {pool}. Arguments set_pool {pool}. Arguments set_confirmed {pool}. Arguments each {pool}.
Arguments bbind {pool A C}. Arguments bret {pool A}. Arguments bget {pool}. Arguments bput {pool}. Arguments blift {pool A}. Arguments bthrow {pool A}.
Arguments in_batch {pool A}. Arguments Confirmed_AddBlock {pool}. Arguments Confirmed_Rewind {pool}. Arguments AddOrphanBlock {pool}.

Lemma tget_find (t : list (bytes * BlockHeader)) k : tget t k = db_find t k.
Proof.
  induction t as [|(a, v) t IH]; [reflexivity|]. cbn [tget db_find].
  replace (bytes_eqb a k) with (bytes_eqb k a); [rewrite IH; reflexivity|].
  destruct (bytes_eqb k a) eqn:E, (bytes_eqb a k) eqn:F; try reflexivity.
  - apply bytes_eqb_spec in E. subst. rewrite bytes_eqb_refl in F. discriminate.
  - apply bytes_eqb_spec in F. subst. rewrite bytes_eqb_refl in E. discriminate.
Qed.
Lemma unspend_tables spent inputs : forall d leaves d' leaves', unspend_inputs spent inputs d leaves = Ret (d', leaves') -> same_tables d d'.
Proof.
  induction inputs as [|x inputs IH]; intros d leaves d' leaves' E; cbn [unspend_inputs] in E.
  - apply Ret_inj in E. injection E as <- <-. apply same_tables_refl.
  - destruct (spent_find _ _); [|discriminate]. apply IH in E. exact E.
Qed.
Lemma rewind_blocks_tables target : forall fuel current d leaves d' leaves', rewind_blocks fuel target current d leaves = Some (Ret (d', leaves')) -> same_tables d d'.
Proof.
  induction fuel as [|n IH]; intros current d leaves d' leaves' E; cbn [rewind_blocks] in E.
  - destruct (bytes_eqb _ _); [|discriminate]. injection E as <- <-. apply same_tables_refl.
  - destruct (bytes_eqb _ _); [injection E as <- <-; apply same_tables_refl|].
    destruct (tget (d_blocks d) _); [|discriminate]. destruct (GetSpentPositions d _) as [sp| |]; [|discriminate|discriminate]. cbv zeta in E.
    destruct (unspend_inputs _ _ _ _) as [(d2, lv)| |] eqn:Eu; [|discriminate|discriminate].
    destruct (tget (d_headers d) _); [|discriminate]. apply IH in E. apply unspend_tables in Eu. exact (same_tables_trans _ _ _ Eu E).
Qed.
Lemma rewind_tables fuel h s d s' d' : Rewind fuel h s d = Some (Ret (s', d')) -> same_tables d d'.
Proof.
  unfold Rewind. destruct (rewind_blocks _ _ _ _ _) as [[(d2, lv)| |]|] eqn:E; intros R; [|discriminate|discriminate|discriminate].
  destruct (rewind_mmrs _ _ _); cbn [obind] in R; [|discriminate|discriminate]. injection R as <- <-. exact (rewind_blocks_tables _ _ _ _ _ _ _ E).
Qed.

Lemma chained_app before a c : chained before (a ++ c) <-> chained before a /\ chained (tip before a) c.
Proof.
  revert before. induction a as [|b a IH]; intros before; cbn [app chained]; [unfold tip; cbn; tauto|].
  rewrite IH. assert (E : tip before (b :: a) = tip (fb_header b) a). { unfold tip. cbn [map]. destruct (map fb_header a) eqn:E; [reflexivity|]. change (last (b0 :: l) before = last (b0 :: l) (fb_header b)). apply last_default. discriminate. }
  rewrite E. tauto.
Qed.
Lemma chained_height chain : forall before i h, chained before chain -> nth_error (before :: map fb_header chain) i = Some h -> h_height h = h_height before + N.of_nat i.
Proof.
  induction chain as [|b chain IH]; intros before i h C E.
  - destruct i as [|i]; [injection E as <-; lia|]. destruct i; discriminate E.
  - destruct i as [|i]; [injection E as <-; lia|]. cbn [nth_error map] in E. destruct C as (_ & C1 & C2). rewrite (IH _ _ _ C2 E). lia.
Qed.

Lemma tip_nth base chain : nth_error (base :: map fb_header chain) (length chain) = Some (tip base chain).
Proof.
  destruct chain as [|b chain] using rev_ind; [reflexivity|]. rewrite tip_snoc, map_app, app_length, Nat.add_comm. cbn [length Nat.add nth_error map].
  rewrite nth_error_app2 by (rewrite map_length; lia). rewrite map_length, Nat.sub_diag. reflexivity.
Qed.

Section Good.
Variable Blake2b : bytes -> bytes.
Variable env : Environment.
Variable verify : FullBlock -> outcome unit.
Variable sums : BlockSums -> FullBlock -> outcome BlockSums.
Variable genesis : FullBlock.
Variable genesis_sums : BlockSums.
Variable HS : list BlockHeader.
Variable BS : list FullBlock.
Notation base := (fb_header genesis).
Notation l0 := (genesis_ledger genesis).
Hypothesis Small : forall h, In h HS -> small h.
Hypothesis Unique : no_collision HS.
Hypothesis Gen_in : In base HS.
Hypothesis Gen_height : h_height base = 0.
Hypothesis Blocks_in : forall b, In b BS -> In (fb_header b) HS.
Hypothesis Well : forall b, In b BS -> well_formed b.
Hypothesis Sizes : true_sizes genesis BS.
Variables (s0 : txhashset) (d0 : blockdb).
Hypothesis Start : represents Blake2b 1 l0 s0 d0.

(** ** Chains *)
Lemma headers_in chain h : incl chain BS -> In h (base :: map fb_header chain) -> In h HS.
Proof. intros I [<-|J]; [exact Gen_in|]. apply in_map_iff in J as (b & <- & J). apply Blocks_in, I, J. Qed.
Lemma hashes_map chain : hashes base chain = map BlockHeader_GetHash (base :: map fb_header chain).
Proof. unfold hashes, hash_of. cbn [map]. rewrite map_map. reflexivity. Qed.
(** A header of the universe whose hash is at some place of a chain is the header at that place. *)
Lemma hash_at chain i h : chained base chain -> incl chain BS -> In h HS -> nth_error (hashes base chain) i = Some (BlockHeader_GetHash h) ->
  nth_error (base :: map fb_header chain) i = Some h /\ h_height h = N.of_nat i.
Proof.
  intros C I J E. rewrite hashes_map in E. rewrite nth_error_map in E. destruct (nth_error (base :: map fb_header chain) i) as [x|] eqn:Ex; [|discriminate].
  cbn [option_map] in E. injection E as E.
  assert (x = h). { apply Unique; [|exact J|exact E]. apply (headers_in chain _ I). apply (nth_error_In _ _ Ex). }
  subst x. split; [reflexivity|]. rewrite (chained_height _ _ _ _ C Ex), Gen_height. lia.
Qed.
Lemma tip_height chain : chained base chain -> h_height (tip base chain) = N.of_nat (length chain).
Proof. intros C. rewrite (chained_height _ _ _ _ C (tip_nth base chain)), Gen_height. lia. Qed.
Lemma fresh_hash chain b : chained base (chain ++ [b]) -> incl chain BS -> In b BS -> ~ In (hash_of b) (hashes base chain).
Proof.
  intros C I J Z. apply In_nth_error in Z as (i & Z). apply chained_app in C as (C & C2). cbn [chained] in C2.
  destruct (hash_at chain i (fb_header b) C I (Blocks_in _ J) Z) as (Ei & Hi). destruct C2 as (_ & C2 & _). rewrite (tip_height _ C) in C2.
  assert (L : (i < length (base :: map fb_header chain))%nat) by (apply nth_error_Some; congruence). cbn [length] in L. rewrite map_length in L. lia.
Qed.

(** ** The ledger of a chain has the coins and kernels of its blocks *)
Lemma ledger_counts chain l : chain_ledger env 1 l0 chain l ->
  length (l_outs l) = length (outputs_of (genesis :: chain)) /\ length (l_kernels l) = length (kernels_of (genesis :: chain)).
Proof.
  induction 1 as [|chain b l l' Ch (IH1 & IH2) ((o & S & C) & K)].
  - unfold outputs_of, kernels_of. cbn [flat_map l_outs l_kernels genesis_ledger]. rewrite !app_nil_r, map_length. auto.
  - apply spends_spends_at in S as (is & S). destruct (spends_at_marks _ _ _ _ _ _ _ S) as ((D1 & _) & _). apply creates_eq in C.
    apply (f_equal (@length _)) in D1. rewrite !map_length in D1. unfold outputs_of, kernels_of in *. rewrite app_comm_cons, !flat_map_app. cbn [flat_map].
    cbn [flat_map] in IH1, IH2. rewrite !app_nil_r, C, K, !app_length, D1, IH1, IH2. unfold created. rewrite map_length, !app_length.
    split; reflexivity.
Qed.
Lemma outputs_snoc chain b : length (outputs_of (genesis :: chain ++ [b])) = (length (outputs_of (genesis :: chain)) + length (b_outputs (fb_body b)))%nat.
Proof. unfold outputs_of. rewrite app_comm_cons, flat_map_app, app_length. cbn [flat_map]. rewrite app_nil_r. reflexivity. Qed.
Lemma kernels_snoc chain b : length (kernels_of (genesis :: chain ++ [b])) = (length (kernels_of (genesis :: chain)) + length (b_kernels (fb_body b)))%nat.
Proof. unfold kernels_of. rewrite app_comm_cons, flat_map_app, app_length. cbn [flat_map]. rewrite app_nil_r. reflexivity. Qed.
Lemma sizes_at chain b : incl chain BS -> In b BS -> chained base (chain ++ [b]) ->
  h_outputMMRSize (fb_header b) = lidx_position (LeafIndex_At (N.of_nat (length (outputs_of (genesis :: chain ++ [b]))))) /\
  h_kernelMMRSize (fb_header b) = lidx_position (LeafIndex_At (N.of_nat (length (kernels_of (genesis :: chain ++ [b]))))) /\
  N.of_nat (length (outputs_of (genesis :: chain ++ [b]))) < 2 ^ 62 /\ N.of_nat (length (kernels_of (genesis :: chain ++ [b]))) < 2 ^ 62.
Proof. intros I J C. apply (Sizes chain b); [|exact C]. apply incl_app; [exact I|]. intros x [<-|[]]. exact J. Qed.

(** ** One state of the output set and the database *)
Definition sums_ok (d : blockdb) (chain : list FullBlock) : Prop :=
  forall pre suf, chain = pre ++ suf -> exists s, chain_sums verify sums genesis_sums pre = Ret s /\
    tget (d_sums d) (BlockHeader_GetHash (tip base pre)) = Some s.
Record good (chain : list FullBlock) (s : txhashset) (d : blockdb) (l : ledger) : Prop := mkGood {
  g_inv : inv Blake2b env 1 base l0 chain s d l;
  g_chained : chained base chain;
  g_in : incl chain BS;
  g_sums : sums_ok d chain }.

Lemma tip_pre_in pre suf : In (BlockHeader_GetHash (tip base pre)) (hashes base (pre ++ suf)).
Proof. pose proof (tip_in base pre) as J. unfold hashes in *. rewrite map_app. cbn [In] in *. destruct J as [J|J]; [left; exact J|]. right. apply in_or_app. left. exact J. Qed.
Lemma good_ext chain s d d' l : good chain s d l -> d_positions d' = d_positions d ->
  (forall h, In h (hashes base chain) -> tget (d_blocks d') h = tget (d_blocks d) h /\ tget (d_headers d') h = tget (d_headers d) h /\
     tget (d_spent d') h = tget (d_spent d) h /\ tget (d_sums d') h = tget (d_sums d) h) -> good chain s d' l.
Proof.
  intros [(Ch & R & ND & Hd & Rm) C I S] P E. constructor; [split; [|split; [|auto]]|exact C|exact I|].
  - apply (chain_ok_ext _ _ _ _ d); [exact Ch|]. intros h J. destruct (E h J) as (A & B & D & _). auto.
  - destruct R as [R1 R2 R3 R4 R5 R6 R7 R8 R9]. constructor; try assumption. intros c loc. unfold GetOutputPosition. rewrite P. apply R9.
  - intros pre suf Eq. destruct (S pre suf Eq) as (x & X1 & X2). exists x. split; [exact X1|]. rewrite <- X2. apply E. rewrite Eq. apply tip_pre_in.
Qed.
Lemma good_step chain s d l b s1 d1 ps sm : good chain s d l -> In b BS -> chained base (chain ++ [b]) ->
  tget (d_headers d) (hash_of b) = Some (fb_header b) -> ApplyBlock Blake2b env d b s = Ret (Some (s1, d1)) -> verify b = Ret tt ->
  tget (d_sums d1) (h_previousBlockHash (fb_header b)) = Some ps -> sums ps b = Ret sm ->
  exists l', good (chain ++ [b]) s1 (mkDB (tput (d_blocks d) (hash_of b) b) (d_headers d) (tput (d_sums d) (hash_of b) sm) (d_positions d1) (d_spent d1)) l' /\
    m_pBlockHeader s1 = fb_header b /\ d_blocks d1 = d_blocks d /\ d_sums d1 = d_sums d /\ applies env 1 b l l'.
Proof.
  intros [(Ch & R & ND & Hd & Rm) C I S] J C' Eh A V Eps Esm.
  pose proof (sizes_at chain b I J C') as (Z1 & Z2 & Z3 & Z4).
  pose proof (fresh_hash chain b C' I J) as Fr.
  destruct (ledger_counts _ _ (chain_ok_ledger _ _ _ _ _ _ _ Ch)) as (N1 & N2).
  rewrite outputs_snoc, <- N1 in Z1, Z3. rewrite kernels_snoc, <- N2 in Z2, Z4.
  assert (Fits : fits b l) by (split; assumption).
  pose proof (apply_ok Blake2b env 1 l s d b R (Well _ J) Fits) as X. rewrite A in X.
  destruct X as (l' & is & o & Sp & Cr & K & R' & Hd' & T1 & T2 & T3 & T4).
  assert (Lo : length (l_outs l') = (length (l_outs l) + length (b_outputs (fb_body b)))%nat).
  { destruct (spends_at_marks _ _ _ _ _ _ _ Sp) as ((D1 & _) & _). pose proof (creates_eq _ _ _ _ _ Cr) as C2. apply (f_equal (@length _)) in D1. rewrite !map_length in D1.
    rewrite C2, app_length, D1. unfold created. rewrite map_length. reflexivity. }
  assert (Lk : length (l_kernels l') = (length (l_kernels l) + length (b_kernels (fb_body b)))%nat) by (rewrite K, app_length; reflexivity).
  assert (Prev : h_previousBlockHash (fb_header b) = BlockHeader_GetHash (tip base chain)).
  { apply chained_app in C' as (_ & C'). apply C'. }
  assert (Other : forall h, In h (hashes base chain) -> bytes_eqb h (hash_of b) = false).
  { intros h Jh. apply bytes_eqb_false. intros ->. contradiction. }
  assert (Ap : applies env 1 b l l') by (split; [exists o; split; [apply (spends_at_spends env 1 _ _ is), Sp|exact Cr]|exact K]).
  exists l'. split; [|auto]. constructor.
  - split; [|split; [|split; [|split; [rewrite tip_snoc; exact Hd'|split; [rewrite Lo; exact Z3|rewrite Lk; exact Z4]]]]].
    + apply (chain_ok_snoc _ _ _ _ _ chain l b l' is o d); try assumption.
      * apply (chain_ok_ext _ _ _ _ d); [exact Ch|]. intros h Jh. cbn [d_blocks d_headers d_spent]. rewrite T4, !tget_put. fold (hash_of b). rewrite (Other h Jh). auto.
      * exact (rep_index _ _ _ _ _ R).
      * split; [rewrite Lo|rewrite Lk]; assumption.
      * cbn [d_blocks]. rewrite tget_put, bytes_eqb_refl. reflexivity.
      * cbn [d_spent]. rewrite T4, tget_put. unfold hash_of. rewrite bytes_eqb_refl. reflexivity.
    + destruct R' as [Q1 Q2 Q3 Q4 Q5 Q6 Q7 Q8 Q9]. constructor; try assumption.
    + unfold hashes in *. rewrite map_app. cbn [map]. rewrite app_comm_cons. apply NoDup_snoc; assumption.
  - exact C'.
  - apply incl_app; [exact I|]. intros x [<-|[]]. exact J.
  - intros pre suf Eq. cbn [d_sums]. destruct suf as [|y suf] using rev_ind.
    + rewrite app_nil_r in Eq. subst pre. exists sm. rewrite tip_snoc, tget_put. fold (hash_of b). rewrite bytes_eqb_refl. split; [|reflexivity].
      destruct (S chain [] (eq_sym (app_nil_r chain))) as (x & X1 & X2). rewrite T3, Prev, X2 in Eps. injection Eps as ->.
      clear - X1 V Esm. revert X1. generalize genesis_sums. induction chain as [|c chain IH]; intros g0 X1; cbn [app chain_sums] in *.
      * apply Ret_inj in X1. subst. rewrite V. cbn [obind]. rewrite Esm. reflexivity.
      * destruct (verify c); cbn [obind] in *; [|discriminate|discriminate]. destruct (sums g0 c); cbn [obind] in *; [|discriminate|discriminate]. apply IH, X1.
    + clear IHsuf. rewrite app_assoc in Eq. apply app_inj_tail in Eq as (Eq & _). destruct (S pre suf Eq) as (x & X1 & X2). exists x. split; [exact X1|].
      rewrite tget_put, Other; [exact X2|]. rewrite Eq. apply tip_pre_in.
Qed.
Lemma good_rewind pre undone s d l fuel s' d' : good (pre ++ undone) s d l -> Rewind fuel (tip base pre) s d = Some (Ret (s', d')) ->
  same_tables d d' /\ exists l', good pre s' d' l'.
Proof.
  intros [Iv C I S] E. pose proof (rewind_tables _ _ _ _ _ _ E) as T. split; [exact T|].
  destruct (rewind_inv Blake2b env 1 base l0 s0 d0 Start pre undone s d l (Nat.max fuel (length undone)) Iv ltac:(lia)) as (s2 & d2 & l2 & E2 & Iv2).
  assert (Q : (s2, d2) = (s', d')).
  { unfold Rewind in E, E2. destruct (rewind_blocks fuel _ _ _ _) as [r|] eqn:Er; [|discriminate E].
    rewrite (rewind_fuel Blake2b _ fuel (Nat.max fuel (length undone)) _ _ _ r ltac:(lia) Er) in E2. congruence. }
  injection Q as -> ->. exists l2. constructor; [exact Iv2| | |].
  - apply chained_app in C. apply C.
  - intros x J. apply I, in_or_app. left. exact J.
  - intros a z Eq. destruct (S a (z ++ undone)) as (x & X1 & X2); [rewrite Eq, app_assoc; reflexivity|]. exists x. split; [exact X1|].
    destruct T as (_ & _ & T & _). rewrite T. exact X2.
Qed.
End Good.
