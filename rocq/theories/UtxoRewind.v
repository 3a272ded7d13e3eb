(** Proofs about rewinding the output set. *)
From Verif Require Import Base Bytes MMRIndexModel MMRIndexProofs MMRHashModel MMRHashSpec MMRHashProofs FileModel BitmapModel BitmapProofs SerialModel SerialSpec
  CodecModel ConsensusModel UtxoModel UtxoSpec UtxoProofs.
Local Open Scope N_scope.

Lemma Ret_inj {A} (x y : A) : Ret x = Ret y -> x = y.
Proof. congruence. Qed.
Lemma same_tables_refl d : same_tables d d.
Proof. repeat split. Qed.
Lemma same_tables_trans a b c : same_tables a b -> same_tables b c -> same_tables a c.
Proof. intros (A1 & A2 & A3 & A4) (B1 & B2 & B3 & B4). repeat split; congruence. Qed.

Lemma NoDup_app_l {A} (l l' : list A) : NoDup (l ++ l') -> NoDup l.
Proof.
  induction l as [|a l IH]; intros N; [constructor|]. inversion N; subst. constructor; [|apply IH; assumption]. intros J. apply H1, in_or_app. left. exact J.
Qed.

Lemma NoDup_snoc {A} (l : list A) x : NoDup l -> ~ In x l -> NoDup (l ++ [x]).
Proof.
  induction l as [|a l IH]; intros N J; [constructor; [intros []|constructor]|]. inversion N as [|? ? N1 N2]; subst. cbn [app]. constructor.
  - intros Q. apply in_app_or in Q as [Q|[Q|[]]]; [contradiction|]. apply J. left. symmetry. exact Q.
  - apply IH; [exact N2|]. intros Q. apply J. right. exact Q.
Qed.

(** * The loop over the inputs of one block *)
Lemma unspend_ok sp inputs : forall is d leaves,
  Forall2 (fun x i => exists h, spent_find sp (i_commitment x) = Some (mkLoc (LeafIndex_At (N.of_nat i)) h)) inputs is ->
  exists d', unspend_inputs sp inputs d leaves = Ret (d', leaves ++ map N.of_nat is) /\ same_tables d d' /\
    forall c, GetOutputPosition d' c = if mem c (map i_commitment inputs) then spent_find sp c else GetOutputPosition d c.
Proof.
  induction inputs as [|x inputs IH]; intros is d leaves F; inversion F as [|x' i inputs' is' (h & E) F']; subst; cbn [unspend_inputs].
  { exists d. cbn [map]. rewrite app_nil_r. split; [reflexivity|]. split; [apply same_tables_refl|reflexivity]. }
  rewrite E. cbn [loc_leaf]. change (lidx_leaf (LeafIndex_At (N.of_nat i))) with (N.of_nat i).
  destruct (IH is' (AddOutputPosition d (i_commitment x) (mkLoc (LeafIndex_At (N.of_nat i)) h)) (leaves ++ [N.of_nat i]) F') as (d' & E' & T & G).
  exists d'. rewrite E'. split; [f_equal; f_equal; rewrite <- app_assoc; reflexivity|]. split; [exact T|].
  intros c. rewrite G. cbn [map]. unfold mem. cbn [existsb]. fold (mem c (map i_commitment inputs)).
  destruct (mem c (map i_commitment inputs)); [rewrite orb_true_r; reflexivity|]. rewrite orb_false_r.
  unfold GetOutputPosition at 1, AddOutputPosition, set_positions. cbn [d_positions]. rewrite tget_put.
  destruct (bytes_eqb c (i_commitment x)) eqn:B; [|reflexivity]. apply bytes_eqb_spec in B. subst c. symmetry. exact E.
Qed.

Lemma atpos_inv p l : LeafIndex_AtPos p = Ret l -> GetLeafIndex (Index_At p) = Ret (lidx_leaf l).
Proof.
  unfold LeafIndex_AtPos. generalize (GetLeafIndex (Index_At p)). intros [k| |] E; cbn [obind] in E; try discriminate E.
  apply Ret_inj in E. rewrite <- E. reflexivity.
Qed.

Section Rewind.
Variable H : bytes -> bytes.
Variable env : Environment.
Variable g : nat.

Lemma creates_fresh height outputs : forall o o', creates g height outputs o o' -> forall i c x, (g <= i)%nat -> nth_error o i = Some (c, true) ->
  In x outputs -> c_commitment c <> o_commitment x.
Proof.
  induction outputs as [|y outputs IH]; intros o o' C i c x G E J; [destruct J|]. inversion C as [|? ? ? ? Fr C2]; subst.
  destruct J as [->|J]; [exact (Fr i c G E)|]. refine (IH _ _ C2 i c x G _ J). rewrite nth_error_app1; [exact E|]. apply nth_error_Some. congruence.
Qed.
Lemma spent_find_sound o : forall inputs is, Forall2 (fun x i => (g <= i)%nat /\ exists c, nth_error o i = Some (c, true) /\ c_commitment c = i_commitment x) inputs is ->
  forall c, (In c (map i_commitment inputs) -> exists i k, (g <= i)%nat /\ nth_error o i = Some (k, true) /\ c_commitment k = c /\
    spent_find (spent_list o inputs is) c = Some (mkLoc (LeafIndex_At (N.of_nat i)) (c_height k))).
Proof.
  induction 1 as [|x i inputs is (G & k & E & C) F IH]; intros c J; [destruct J|]. cbn [spent_list spent_find]. rewrite E. cbn [spent_entry sp_commitment sp_location].
  destruct (bytes_eqb (i_commitment x) c) eqn:B.
  - apply bytes_eqb_spec in B. exists i, k. split; [exact G|]. split; [exact E|]. split; [congruence|reflexivity].
  - destruct J as [J|J]; [|apply IH, J]. subst c. rewrite bytes_eqb_refl in B. discriminate.
Qed.

(** One block undone. *)
Lemma unblock l b l' is o d d0 leaves :
  indexed g (l_outs l) d0 ->
  spends_at env g (h_height (fb_header b)) (b_inputs (fb_body b)) is (l_outs l) o ->
  creates g (h_height (fb_header b)) (b_outputs (fb_body b)) o (l_outs l') -> indexed g (l_outs l') d ->
  exists d', unspend_inputs (spent_list (l_outs l) (b_inputs (fb_body b)) is) (b_inputs (fb_body b))
      (RemoveOutputPositions d (map o_commitment (b_outputs (fb_body b)))) leaves = Ret (d', leaves ++ map N.of_nat is) /\
    same_tables d d' /\ indexed g (l_outs l) d'.
Proof.
  intros I0 S C I. set (inputs := b_inputs (fb_body b)) in *. set (outputs := b_outputs (fb_body b)) in *. set (height := h_height (fb_header b)) in *.
  destruct (spends_at_marks _ _ _ _ _ _ _ S) as ((D1 & D2 & D3) & F).
  assert (F' : Forall2 (fun x i => (g <= i)%nat /\ exists c, nth_error (l_outs l) i = Some (c, true) /\ c_commitment c = i_commitment x) inputs is).
  { eapply Forall2_impl; [|exact F]. intros x i (G & c & E & Cc & _). split; [exact G|]. exists c. auto. }
  pose proof (spent_find_sound _ _ _ F') as SF. set (sp := spent_list (l_outs l) inputs is) in *.
  assert (F2 : Forall2 (fun x i => exists h, spent_find sp (i_commitment x) = Some (mkLoc (LeafIndex_At (N.of_nat i)) h)) inputs is).
  { assert (A : forall xs js, Forall2 (fun x i => (g <= i)%nat /\ exists c, nth_error (l_outs l) i = Some (c, true) /\ c_commitment c = i_commitment x) xs js ->
      incl xs inputs -> Forall2 (fun x i => exists h, spent_find sp (i_commitment x) = Some (mkLoc (LeafIndex_At (N.of_nat i)) h)) xs js).
    { induction 1 as [|x i xs js (G & k & E & Ck) Fx IH]; intros Inc; constructor.
      - destruct (SF (i_commitment x)) as (j & k' & G' & E' & Ck' & Ef). { apply in_map, Inc. left. reflexivity. }
        assert (j = i). { apply (index_unique g (l_outs l) d0 j i k' k I0 G' G E' E). congruence. }
        subst j. exists (c_height k'). exact Ef.
      - apply IH. intros y J. apply Inc. right. exact J. }
    exact (A inputs is F' (incl_refl _)). }
  destruct (unspend_ok sp inputs is (RemoveOutputPositions d (map o_commitment outputs)) leaves F2) as (d' & E & T & G).
  exists d'. split; [exact E|]. split; [exact T|].
  intros c loc. rewrite G. destruct (mem c (map i_commitment inputs)) eqn:Mi.
  - apply mem_in in Mi. destruct (SF c Mi) as (i & k & Gi & Ei & Ci & Ef). rewrite Ef. split.
    + intros Q. apply some_inj in Q. exists i, k. auto.
    + intros (j & k' & Gj & Ej & Cj & ->). assert (j = i). { apply (index_unique g (l_outs l) d0 j i k' k I0 Gj Gi Ej Ei). congruence. }
      subst j. rewrite Ej in Ei. injection Ei as ->. reflexivity.
  - assert (Ni : ~ In c (map i_commitment inputs)) by (intros J; apply mem_in in J; congruence).
    assert (Keep : forall i k, nth_error (l_outs l) i = Some (k, true) -> c_commitment k = c -> nth_error o i = Some (k, true)).
    { intros i k Ei Ck. destruct (D3 i k Ei) as [Z|(Z & J)]; [exact Z|]. rewrite Ck in J. contradiction. }
    rewrite positions_removed. destruct (mem c (map o_commitment outputs)) eqn:Mo.
    + apply mem_in in Mo. apply in_map_iff in Mo as (x & Cx & Jx). split; [discriminate|].
      intros (i & k & Gi & Ei & Ci & _). exfalso. apply (creates_fresh height outputs o (l_outs l') C i k x Gi (Keep _ _ Ei Ci) Jx). congruence.
    + assert (No : ~ In c (map o_commitment outputs)) by (intros J; apply mem_in in J; congruence).
      rewrite (I c loc). rewrite (creates_eq _ _ _ _ _ C). split; intros (i & k & Gi & Ei & Ci & ->); exists i, k; (split; [exact Gi|]); (split; [|auto]).
      * destruct (Nat.lt_ge_cases i (length o)) as [Q|Q].
        -- rewrite nth_error_app1 in Ei by exact Q. apply D2, Ei.
        -- exfalso. rewrite nth_error_app2 in Ei by exact Q. apply nth_error_In in Ei. unfold created in Ei. apply in_map_iff in Ei as (x & Ex & Jx).
           injection Ex as Ex. apply No. rewrite <- Ci, <- Ex. cbn [coin_of c_commitment]. apply in_map, Jx.
      * rewrite nth_error_app1; [apply Keep; assumption|]. apply nth_error_Some. rewrite (Keep i k Ei Ci). discriminate.
Qed.

(** * The chain as the database records it *)
Variable base : BlockHeader.
Variable l0 : ledger.
Definition hash_of (b : FullBlock) : bytes := BlockHeader_GetHash (fb_header b).
Definition sized (l : ledger) (h : BlockHeader) : Prop :=
  h_outputMMRSize h = lidx_position (LeafIndex_At (N.of_nat (length (l_outs l)))) /\
  h_kernelMMRSize h = lidx_position (LeafIndex_At (N.of_nat (length (l_kernels l)))).
Inductive chain_ok (d : blockdb) : list FullBlock -> ledger -> Prop :=
| chain_ok_nil : tget (d_headers d) (BlockHeader_GetHash base) = Some base -> sized l0 base -> chain_ok d [] l0
| chain_ok_snoc chain l b l' is o d0 :
    chain_ok d chain l -> indexed g (l_outs l) d0 ->
    spends_at env g (h_height (fb_header b)) (b_inputs (fb_body b)) is (l_outs l) o ->
    creates g (h_height (fb_header b)) (b_outputs (fb_body b)) o (l_outs l') -> l_kernels l' = l_kernels l ++ b_kernels (fb_body b) ->
    h_previousBlockHash (fb_header b) = BlockHeader_GetHash (tip base chain) -> sized l' (fb_header b) ->
    tget (d_blocks d) (hash_of b) = Some b -> tget (d_headers d) (hash_of b) = Some (fb_header b) ->
    tget (d_spent d) (hash_of b) = Some (spent_list (l_outs l) (b_inputs (fb_body b)) is) ->
    chain_ok d (chain ++ [b]) l'.
Definition hashes (chain : list FullBlock) : list bytes := BlockHeader_GetHash base :: map hash_of chain.
Lemma tip_snoc chain b : tip base (chain ++ [b]) = fb_header b.
Proof. unfold tip. rewrite map_app. apply last_last. Qed.
Lemma tip_in chain : In (BlockHeader_GetHash (tip base chain)) (hashes chain).
Proof.
  destruct chain as [|b chain] using rev_ind; [left; reflexivity|]. rewrite tip_snoc. right. apply in_map_iff. exists b. split; [reflexivity|].
  apply in_or_app. right. left. reflexivity.
Qed.
Lemma chain_ok_ext d d' chain l : chain_ok d chain l ->
  (forall h, In h (hashes chain) -> tget (d_blocks d') h = tget (d_blocks d) h /\ tget (d_headers d') h = tget (d_headers d) h /\ tget (d_spent d') h = tget (d_spent d) h) ->
  chain_ok d' chain l.
Proof.
  induction 1 as [T S|chain l b l' is o d0 Ch IH I S C K P Z T1 T2 T3]; intros Q.
  - constructor; [|exact S]. rewrite (proj1 (proj2 (Q _ (or_introl eq_refl)))). exact T.
  - assert (J : In (hash_of b) (hashes (chain ++ [b]))). { right. apply in_map, in_or_app. right. left. reflexivity. }
    destruct (Q _ J) as (Q1 & Q2 & Q3).
    apply (chain_ok_snoc d' chain l b l' is o d0); try assumption; try congruence.
    apply IH. intros h Jh. apply Q. destruct Jh as [Jh|Jh]; [left; exact Jh|right]. rewrite map_app. apply in_or_app. left. exact Jh.
Qed.
Lemma chain_ok_tables d d' chain l : same_tables d d' -> chain_ok d chain l -> chain_ok d' chain l.
Proof. intros (A & B & _ & D) Ch. apply (chain_ok_ext d); [exact Ch|]. intros h _. rewrite A, B, D. auto. Qed.
Lemma chain_tip d chain l : chain_ok d chain l -> tget (d_headers d) (BlockHeader_GetHash (tip base chain)) = Some (tip base chain) /\ sized l (tip base chain).
Proof. destruct 1; [split; assumption|]. rewrite tip_snoc. split; assumption. Qed.
Lemma chain_snoc_inv d chain b l' : chain_ok d (chain ++ [b]) l' -> exists l is o d0,
    chain_ok d chain l /\ indexed g (l_outs l) d0 /\
    spends_at env g (h_height (fb_header b)) (b_inputs (fb_body b)) is (l_outs l) o /\
    creates g (h_height (fb_header b)) (b_outputs (fb_body b)) o (l_outs l') /\ l_kernels l' = l_kernels l ++ b_kernels (fb_body b) /\
    h_previousBlockHash (fb_header b) = BlockHeader_GetHash (tip base chain) /\
    tget (d_blocks d) (hash_of b) = Some b /\
    tget (d_spent d) (hash_of b) = Some (spent_list (l_outs l) (b_inputs (fb_body b)) is).
Proof.
  intros Ch. inversion Ch as [A B C|chain2 l b2 l2 is o d0 Ch2 I S C K P Z T1 T2 T3 E1 E2].
  - symmetry in C. apply app_eq_nil in C as (_ & C). discriminate C.
  - apply app_inj_tail in E1 as (-> & ->). exists l, is, o, d0. auto 10.
Qed.
Lemma chain_fun d d' : forall chain l l', chain_ok d chain l -> chain_ok d' chain l' -> l = l'.
Proof.
  induction chain as [|b chain IH] using rev_ind; intros l l' C1 C2.
  - assert (A : forall dd m, chain_ok dd [] m -> m = l0).
    { intros dd m C. inversion C as [|? ? ? ? ? ? ? ? ? ? ? ? ? ? ? ? ? E1]; [reflexivity|]. apply app_eq_nil in E1 as (_ & E1). discriminate E1. }
    rewrite (A _ _ C1), (A _ _ C2). reflexivity.
  - apply chain_snoc_inv in C1 as (m & is & o & d0 & Ch & I & S & C & K & _). apply chain_snoc_inv in C2 as (m' & is' & o' & d0' & Ch' & I' & S' & C' & K' & _).
    assert (m = m') by (apply IH; assumption). subst m'.
    assert (o = o') by (exact (spends_at_fun env g _ _ _ d0 I _ _ _ _ S S')). subst o'.
    apply creates_eq in C. apply creates_eq in C'. destruct l as (lo, lk), l' as (lo', lk'). cbn [l_outs l_kernels] in *. congruence.
Qed.
Lemma chain_ok_ledger d chain l : chain_ok d chain l -> chain_ledger env g l0 chain l.
Proof.
  induction 1 as [T S|chain l b l' is o d0 Ch IH I S C K P Z T1 T2 T3]; [constructor|]. econstructor; [exact IH|]. split; [|exact K].
  exists o. split; [apply (spends_at_spends env g _ _ is), S|exact C].
Qed.

(** * The loop over the blocks *)
Definition grown (l lc : ledger) (leaves : list N) : Prop :=
  (exists more, map fst (l_outs lc) = map fst (l_outs l) ++ more) /\ (exists more, l_kernels lc = l_kernels l ++ more) /\
  (forall i, (i < length (l_outs l))%nat -> nth i (map snd (l_outs l)) false = (existsb (N.eqb (N.of_nat i)) leaves || nth i (map snd (l_outs lc)) false)%bool).
Lemma nth_app_flag (o more : outs) i : (i < length o)%nat -> nth i (map snd (o ++ more)) false = nth i (map snd o) false.
Proof. intros L. rewrite map_app, app_nth1; [reflexivity|]. rewrite map_length. exact L. Qed.
Lemma grown_step l b l1 is o lc leaves :
  spends_at env g (h_height (fb_header b)) (b_inputs (fb_body b)) is (l_outs l) o ->
  creates g (h_height (fb_header b)) (b_outputs (fb_body b)) o (l_outs l1) -> l_kernels l1 = l_kernels l ++ b_kernels (fb_body b) ->
  grown l1 lc leaves -> grown l lc (leaves ++ map N.of_nat is).
Proof.
  intros S C K ((m1 & G1) & (m2 & G2) & G3). apply creates_eq in C. destruct (spends_at_marks _ _ _ _ _ _ _ S) as ((D1 & D2 & D3) & F).
  assert (Lo : length o = length (l_outs l)). { rewrite <- (map_length fst o), D1, map_length. reflexivity. }
  split; [|split].
  - exists (map fst (created (h_height (fb_header b)) (b_outputs (fb_body b))) ++ m1). rewrite G1, C, map_app, D1, <- app_assoc. reflexivity.
  - exists (b_kernels (fb_body b) ++ m2). rewrite G2, K, <- app_assoc. reflexivity.
  - intros i Li. rewrite existsb_app. rewrite <- orb_assoc, (orb_comm (existsb _ (map N.of_nat is))), orb_assoc.
    rewrite <- G3 by (rewrite C, app_length; lia). rewrite C, nth_app_flag by lia.
    destruct (nth_error (l_outs l) i) as [(c, f)|] eqn:E; [|apply nth_error_None in E; lia].
    rewrite (nth_flag _ _ _ _ E).
    assert (Mem : existsb (N.eqb (N.of_nat i)) (map N.of_nat is) = true <-> In i is).
    { rewrite existsb_exists. split.
      - intros (x & J & Q). apply N.eqb_eq in Q. apply in_map_iff in J as (j & Ej & J). assert (i = j) by lia. subst. exact J.
      - intros J. exists (N.of_nat i). split; [apply in_map, J|apply N.eqb_refl]. }
    destruct f.
    + destruct (D3 i c E) as [Z|(Z & J)]; [rewrite (nth_flag _ _ _ _ Z); reflexivity|]. rewrite (nth_flag _ _ _ _ Z). cbn [orb].
      symmetry. apply Mem. clear - S Z E.
      assert (A : forall xs js p q, spends_at env g (h_height (fb_header b)) xs js p q -> nth_error p i = Some (c, true) -> nth_error q i = Some (c, false) -> In i js).
      { induction 1 as [p|x rest j js k p q G Ej Ck M S2 IH]; intros A B; [congruence|]. destruct (Nat.eq_dec j i) as [->|Nj]; [left; reflexivity|right].
        apply IH; [exact S2| |exact B]. rewrite nth_spend. destruct (Nat.eqb_spec i j); [lia|exact A]. }
      exact (A _ _ _ _ S E Z).
    + symmetry. apply orb_false_iff. split.
      * destruct (nth_error o i) as [(c', [|])|] eqn:Z; [apply D2 in Z; congruence|rewrite (nth_flag _ _ _ _ Z); reflexivity|rewrite (nth_flag_none _ _ Z); reflexivity].
      * apply not_true_is_false. intros T. apply Mem in T. clear - F T E.
        induction F as [|x j xs js (G & k & Ej & _) F IH]; [destruct T|]. destruct T as [->|T]; [congruence|apply IH, T].
Qed.

Lemma rewind_loop chain : forall undone d lc leaves fuel, chain_ok d (chain ++ undone) lc -> indexed g (l_outs lc) d ->
  NoDup (hashes (chain ++ undone)) -> (length undone <= fuel)%nat ->
  exists d' more l, rewind_blocks fuel (BlockHeader_GetHash (tip base chain)) (tip base (chain ++ undone)) d leaves = Some (Ret (d', leaves ++ more)) /\
    chain_ok d chain l /\ indexed g (l_outs l) d' /\ same_tables d d' /\
    forall lf lv, grown lc lf lv -> grown l lf (lv ++ more).
Proof.
  induction undone as [|b undone IH] using rev_ind; intros d lc leaves fuel Ch I ND Fu.
  - rewrite app_nil_r in *. exists d, [], lc. rewrite app_nil_r. split; [|split; [exact Ch|split; [exact I|split; [apply same_tables_refl|]]]].
    + destruct fuel; cbn [rewind_blocks]; rewrite bytes_eqb_refl; reflexivity.
    + intros lf lv G. rewrite app_nil_r. exact G.
  - rewrite app_assoc in *. destruct (chain_snoc_inv _ _ _ _ Ch) as (l & is & o & d0 & Ch' & I0 & S & C & K & P & T1 & T3).
    rewrite app_length in Fu. cbn [length] in Fu. destruct fuel as [|fuel]; [lia|].
    assert (ND' : NoDup (hashes (chain ++ undone))).
    { unfold hashes in *. rewrite map_app, app_comm_cons in ND. exact (NoDup_app_l _ _ ND). }
    rewrite tip_snoc. cbn [rewind_blocks]. fold (hash_of b).
    assert (Ne : bytes_eqb (hash_of b) (BlockHeader_GetHash (tip base chain)) = false).
    { apply bytes_eqb_false. intros Q.
      assert (J : In (BlockHeader_GetHash (tip base chain)) (hashes (chain ++ undone))).
      { destruct (tip_in chain) as [J|J]; [left; exact J|right]. rewrite map_app. apply in_or_app. left. exact J. }
      unfold hashes in ND. rewrite map_app, app_comm_cons in ND. apply NoDup_remove_2 in ND. apply ND. rewrite app_nil_r. cbn [map]. rewrite Q. exact J. }
    rewrite Ne, T1. unfold GetSpentPositions. rewrite T3.
    destruct (unblock l b lc is o d d0 leaves I0 S C I) as (d1 & E1 & Tb & I1). rewrite E1, P, (proj1 (chain_tip _ _ _ Ch')).
    destruct (IH d1 l (leaves ++ map N.of_nat is) fuel (chain_ok_tables _ _ _ _ Tb Ch') I1 ND' ltac:(lia)) as (d2 & more & l2 & E2 & Ch2 & I2 & Tb2 & G2).
    exists d2, (map N.of_nat is ++ more), l2. rewrite app_assoc. split; [exact E2|]. split.
    { apply (chain_ok_tables d1); [|exact Ch2]. destruct Tb as (A & B & Cc & D). repeat split; congruence. }
    split; [exact I2|]. split; [exact (same_tables_trans _ _ _ Tb Tb2)|].
    intros lf lv Gr. rewrite app_assoc. apply G2. exact (grown_step l b lc is o lf lv S C K Gr).
Qed.
Lemma rewind_fuel target : forall n m current d leaves r, (n <= m)%nat -> rewind_blocks n target current d leaves = Some r -> rewind_blocks m target current d leaves = Some r.
Proof.
  induction n as [|n IH]; intros m current d leaves r L; cbn [rewind_blocks].
  - destruct m as [|m]; cbn [rewind_blocks]; destruct (bytes_eqb _ _); try discriminate; auto.
  - destruct m as [|m]; [lia|]. cbn [rewind_blocks]. destruct (bytes_eqb _ _); [auto|]. destruct (tget (d_blocks d) _) as [blk|]; [|auto].
    destruct (GetSpentPositions d _) as [sp| |]; auto. destruct (unspend_inputs _ _ _ _) as [(d2, lv)| |]; auto. destruct (tget (d_headers d) _) as [h|]; [|auto].
    apply IH. lia.
Qed.

(** * The MMRs *)
Lemma num_of_size n : n < 2 ^ 62 -> GetLeafIndex (Index_At (lidx_position (LeafIndex_At n))) = Ret n.
Proof. intros L. destruct (leaf_of_position n L) as (E & _ & Q). rewrite (atpos_inv _ _ E). rewrite Q. reflexivity. Qed.
Lemma firstn_prefix (l : outs) (lc : outs) more : map fst lc = map fst l ++ more -> (length l <= length lc)%nat.
Proof. intros E. apply (f_equal (@length _)) in E. rewrite app_length, !map_length in E. lia. Qed.
Lemma pm_back recs more flags lflags m adds : pm H (recs ++ more) flags m -> room_for (length (recs ++ more)) -> length lflags = length recs ->
  (forall i, (i < length recs)%nat -> nth i lflags false = (existsb (N.eqb (N.of_nat i)) adds || nth i flags false)%bool) ->
  exists m', PMMR_Rewind m (N.of_nat (length recs)) adds = Ret m' /\ pm H recs lflags m'.
Proof.
  intros P R L F. destruct (pm_rewind H recs more flags m adds P R) as (m' & E & Fi & B & S). exists m'. split; [exact E|].
  split; [exact Fi|]. split; [|exact L]. split; [exact B|]. intros i. rewrite S.
  destruct (N.ltb_spec i (N.of_nat (length recs))) as [C|C].
  - rewrite andb_true_r, F, N2Nat.id by lia. reflexivity.
  - rewrite andb_false_r. symmetry. apply nth_overflow. lia.
Qed.
Lemma rewind_mmrs_ok l lc leaves s h : mmrs H lc s -> room_for (length (l_outs lc)) -> room_for (length (l_kernels lc)) -> grown l lc leaves -> sized l h ->
  exists s', rewind_mmrs h leaves s = Ret s' /\ mmrs H l s' /\ m_pBlockHeader s' = h.
Proof.
  intros (M1 & M2 & M3) R1 R2 ((m1 & G1) & (m2 & G2) & G3) (Z1 & Z2).
  pose proof (firstn_prefix _ _ _ G1) as L1. assert (L2 : (length (l_kernels l) <= length (l_kernels lc))%nat) by (rewrite G2, app_length; lia).
  unfold rewind_mmrs, GetNumKernels, GetNumOutputs. rewrite Z1, Z2.
  rewrite !num_of_size by (clear - R1 R2 L1 L2; unfold room_for in *; lia). cbn [obind].
  assert (Fk : kernel_records (l_kernels lc) = kernel_records (l_kernels l) ++ kernel_records m2) by (rewrite G2; apply map_app).
  rewrite Fk in M3. destruct (files_rewind H _ _ _ _ M3) as (hk & Ek & Fkk). { rewrite <- Fk. unfold kernel_records. rewrite map_length. exact R2. }
  assert (Lk : length (kernel_records (l_kernels l)) = length (l_kernels l)) by apply map_length. rewrite Lk in Ek, Fkk.
  unfold KMMR_Rewind. rewrite Ek. cbn [obind].
  assert (Dk : km_data (m_pKernelMMR s) = kernel_records (l_kernels l) ++ kernel_records m2) by apply M3.
  destruct (N.leb_spec (N.of_nat (length (l_kernels l))) (nlen (km_data (m_pKernelMMR s)))) as [_|Cx].
  2:{ exfalso. rewrite Dk in Cx. unfold nlen in Cx. rewrite app_length, Lk in Cx. clear - Cx. lia. }
  cbn [obind].
  assert (Ro : exists r, output_records (l_outs lc) = output_records (l_outs l) ++ r).
  { unfold output_records. rewrite <- !(map_map fst (fun c => c_features c :: c_commitment c)). rewrite G1, map_app. eexists. reflexivity. }
  assert (Rp : exists r, proof_records (l_outs lc) = proof_records (l_outs l) ++ r).
  { unfold proof_records. rewrite <- !(map_map fst (fun c => be_bytes 8 (N.of_nat (length (c_proof c))) ++ c_proof c)). rewrite G1, map_app. eexists. reflexivity. }
  destruct Ro as (ro & Ro). destruct Rp as (rp & Rp).
  assert (Len : forall r : outs, length (output_records r) = length r /\ length (proof_records r) = length r).
  { intros r. unfold output_records, proof_records. rewrite !map_length. split; reflexivity. }
  rewrite Ro in M1. rewrite Rp in M2.
  destruct (pm_back (output_records (l_outs l)) ro _ (map snd (l_outs l)) _ leaves M1) as (om & Eo & Mo).
  { rewrite <- Ro, (proj1 (Len _)). exact R1. } { rewrite map_length, (proj1 (Len _)). reflexivity. }
  { intros i Li. apply G3. rewrite (proj1 (Len _)) in Li. exact Li. }
  destruct (pm_back (proof_records (l_outs l)) rp _ (map snd (l_outs l)) _ leaves M2) as (rm & Er & Mr).
  { rewrite <- Rp, (proj2 (Len _)). exact R1. } { rewrite map_length, (proj2 (Len _)). reflexivity. }
  { intros i Li. apply G3. rewrite (proj2 (Len _)) in Li. exact Li. }
  rewrite (proj1 (Len _)) in Eo. rewrite (proj2 (Len _)) in Er. rewrite Eo. cbn [obind]. rewrite Er. cbn [obind].
  eexists. split; [reflexivity|]. split; [|reflexivity]. split; [exact Mo|]. split; [exact Mr|].
  cbn [m_pKernelMMR km_hash km_data]. rewrite Nat2N.id. exact Fkk.
Qed.
Lemma mmrs_same l s s' : mmrs H l s -> mmrs H l s' -> m_pBlockHeader s = m_pBlockHeader s' -> same_set s s'.
Proof.
  intros ((F1 & (_ & B1) & _) & (F2 & (_ & B2) & _) & F3) ((F1' & (_ & B1') & _) & (F2' & (_ & B2') & _) & F3') E.
  destruct (files_unique H _ _ _ _ _ F1 F1') as (? & ?). destruct (files_unique H _ _ _ _ _ F2 F2') as (? & ?). destruct (files_unique H _ _ _ _ _ F3 F3') as (? & ?).
  split; [destruct (m_pKernelMMR s) as (kh, kd), (m_pKernelMMR s') as (kh', kd'); cbn [km_hash km_data] in *; congruence|].
  repeat split; try assumption; intros i; [rewrite B1, B1'|rewrite B2, B2']; reflexivity.
Qed.

(** * Any history *)
Variables (s0 : txhashset) (d0 : blockdb).
Hypothesis Start : represents H g l0 s0 d0.
Hypothesis Start_header : m_pBlockHeader s0 = base.
Hypothesis Start_stored : tget (d_headers d0) (BlockHeader_GetHash base) = Some base.
Hypothesis Start_sizes : honest_sizes s0 base.
Hypothesis Start_room : room l0.
Lemma honest_sized l s d h : represents H g l s d -> room l -> honest_sizes s h -> sized l h.
Proof.
  intros R (Ro & Rk) (Z1 & Z2). split.
  - rewrite Z1, (files_size H _ _ _ (rep_outputs _ _ _ _ _ R)); unfold output_records, room_for; rewrite map_length; [reflexivity|exact Ro].
  - rewrite Z2, (files_size H _ _ _ (rep_kernels _ _ _ _ _ R)); unfold kernel_records, room_for; rewrite map_length; [reflexivity|exact Rk].
Qed.
Definition inv (chain : list FullBlock) (s : txhashset) (d : blockdb) (l : ledger) : Prop :=
  chain_ok d chain l /\ represents H g l s d /\ NoDup (hashes chain) /\ m_pBlockHeader s = tip base chain /\ room l.
Lemma rewind_inv chain undone s d l fuel : inv (chain ++ undone) s d l -> (length undone <= fuel)%nat ->
  exists s' d' l', Rewind fuel (tip base chain) s d = Some (Ret (s', d')) /\ inv chain s' d' l'.
Proof.
  intros (Ch & R & ND & Hd & (Ro & Rk)) Fu. unfold Rewind. rewrite Hd.
  destruct (rewind_loop chain undone d l [] fuel Ch (rep_index _ _ _ _ _ R) ND Fu) as (d' & more & l' & E & Ch' & I' & T & G).
  rewrite E. cbn [app]. pose proof R as R0. apply represents_mmrs in R as (M & K & Gl & I).
  assert (Gr : grown l' l more).
  { apply (G l []). split; [exists []; symmetry; apply app_nil_r|]. split; [exists []; symmetry; apply app_nil_r|]. reflexivity. }
  destruct (rewind_mmrs_ok l' l more s (tip base chain) M Ro Rk Gr (proj2 (chain_tip _ _ _ Ch'))) as (s' & Es & M' & Hd').
  rewrite Es. cbn [obind]. exists s', d', l'. split; [reflexivity|]. destruct Gr as ((m1 & G1) & (m2 & G2) & G3).
  split; [exact (chain_ok_tables _ _ _ _ T Ch')|]. split.
  { apply represents_mmrs. split; [exact M'|]. split; [|split; [|exact I']].
    - unfold coins_ok in *. rewrite <- (Forall_map fst coin_ok) in K |- *. rewrite G1 in K. apply Forall_app in K. apply K.
    - clear - Ch' Start. apply chain_ok_ledger in Ch'. pose proof (rep_known _ _ _ _ _ Start) as L0.
      induction Ch' as [|chain b l l' Ch IH ((o & S & C) & _)]; [exact L0|]. apply spends_spends_at in S as (is & S).
      destruct (spends_at_marks _ _ _ _ _ _ _ S) as ((D1 & _) & _). apply creates_eq in C. rewrite C, app_length.
      apply (f_equal (@length _)) in D1. rewrite !map_length in D1. lia. }
  split; [|split; [exact Hd'|]].
  - unfold hashes in ND. rewrite map_app, app_comm_cons in ND. exact (NoDup_app_l _ _ ND).
  - split; [|rewrite G2, app_length in Rk; clear - Rk; lia].
    pose proof (firstn_prefix _ _ _ G1) as L. clear - L Ro. lia.
Qed.
Lemma history_inv chain s d : history H env base s0 d0 chain s d -> exists l, inv chain s d l.
Proof.
  induction 1 as [|chain s d b sums s' d' Hi (l & Ch & R & ND & Hd & Rm) P Fr W A Z Ro Rk|chain undone fuel s d s' d' Hi (l & Iv) E].
  - exists l0. split; [constructor; [exact Start_stored|exact (honest_sized _ _ _ _ Start Start_room Start_sizes)]|].
    split; [exact Start|]. split; [constructor; [intros J; destruct J|constructor]|]. split; [exact Start_header|exact Start_room].
  - assert (Fits : fits b l).
    { pose proof (proj1 (rep_outputs _ _ _ _ _ R)) as Q1. pose proof (proj1 (rep_kernels _ _ _ _ _ R)) as Q2. rewrite Q1 in Ro. rewrite Q2 in Rk.
      unfold output_records in Ro. unfold kernel_records in Rk. rewrite map_length in Ro, Rk. split; assumption. }
    pose proof (apply_ok H env g l s d b R W Fits) as X. rewrite A in X.
    destruct X as (l' & is & o & S & C & K & R' & Hd' & T1 & T2 & T3 & T4).
    assert (Rm' : room l').
    { destruct (spends_at_marks _ _ _ _ _ _ _ S) as ((D1 & _) & _). pose proof (creates_eq _ _ _ _ _ C) as C'. apply (f_equal (@length _)) in D1. rewrite !map_length in D1.
      split; [rewrite C', app_length, D1; unfold created; rewrite map_length; apply Fits|rewrite K, app_length; apply Fits]. }
    assert (Fr' : ~ In (hash_of b) (hashes chain)). { unfold hashes, hash_of. rewrite <- map_map. exact Fr. }
    exists l'. split; [|split; [|split; [|split; [|exact Rm']]]].
    + apply (chain_ok_snoc _ chain l b l' is o d); try assumption.
      * apply (chain_ok_ext d); [exact Ch|]. intros h J. cbn [store_block d_blocks d_headers d_spent]. rewrite T1, T2, T4, !tget_put.
        assert (Q : bytes_eqb h (hash_of b) = false). { apply bytes_eqb_false. intros ->. contradiction. }
        unfold hash_of in Q. rewrite Q. auto.
      * exact (rep_index _ _ _ _ _ R).
      * exact (honest_sized _ _ _ _ R' Rm' Z).
      * cbn [store_block d_blocks]. rewrite tget_put. unfold hash_of. rewrite bytes_eqb_refl. reflexivity.
      * cbn [store_block d_headers]. rewrite tget_put. unfold hash_of. rewrite bytes_eqb_refl. reflexivity.
      * cbn [store_block d_spent]. rewrite T4, tget_put. unfold hash_of. rewrite bytes_eqb_refl. reflexivity.
    + destruct R'. constructor; assumption.
    + unfold hashes in *. rewrite map_app. cbn [map]. rewrite app_comm_cons. apply NoDup_snoc; assumption.
    + rewrite tip_snoc. exact Hd'.
  - destruct (rewind_inv chain undone s d l (Nat.max fuel (length undone)) Iv ltac:(lia)) as (s2 & d2 & l2 & E2 & Iv2).
    exists l2. assert (Q : (s2, d2) = (s', d')); [|injection Q as -> ->; exact Iv2].
    unfold Rewind in E, E2. destruct (rewind_blocks fuel _ _ _ _) as [r|] eqn:Er; [|discriminate E].
    rewrite (rewind_fuel _ fuel (Nat.max fuel (length undone)) _ _ _ r ltac:(lia) Er) in E2. congruence.
Qed.

Lemma history_ledger chain s d : history H env base s0 d0 chain s d ->
  exists l, chain_ledger env g l0 chain l /\ represents H g l s d /\ m_pBlockHeader s = tip base chain.
Proof. intros Hi. destruct (history_inv _ _ _ Hi) as (l & Ch & R & _ & Hd & _). exists l. split; [exact (chain_ok_ledger _ _ _ Ch)|auto]. Qed.
Lemma history_same chain s d s' d' : history H env base s0 d0 chain s d -> history H env base s0 d0 chain s' d' -> same_set s s' /\ same_positions d d'.
Proof.
  intros A B. destruct (history_inv _ _ _ A) as (l & Ch & R & _ & Hd & _). destruct (history_inv _ _ _ B) as (l' & Ch' & R' & _ & Hd' & _).
  rewrite (chain_fun _ _ _ _ _ Ch Ch') in *. apply represents_mmrs in R as (M & _ & _ & I). apply represents_mmrs in R' as (M' & _ & _ & I').
  split; [apply (mmrs_same l'); [exact M|exact M'|congruence]|]. intros c.
  destruct (GetOutputPosition d c) as [x|] eqn:E; destruct (GetOutputPosition d' c) as [y|] eqn:E'; try reflexivity.
  - apply I, I' in E. congruence.
  - apply I, I' in E. congruence.
  - apply I', I in E'. congruence.
Qed.
Lemma history_rewind_total chain undone s d fuel : history H env base s0 d0 (chain ++ undone) s d -> (length undone <= fuel)%nat ->
  exists s' d', Rewind fuel (tip base chain) s d = Some (Ret (s', d')).
Proof.
  intros A L. destruct (history_inv _ _ _ A) as (l & Iv). destruct (rewind_inv _ _ _ _ _ fuel Iv L) as (s' & d' & l' & E & _). exists s', d'. exact E.
Qed.
Lemma history_prefix chain undone s d : history H env base s0 d0 (chain ++ undone) s d -> exists s' d', history H env base s0 d0 chain s' d'.
Proof.
  intros A. destruct (history_rewind_total _ _ _ _ (length undone) A (le_n _)) as (s' & d' & E). exists s', d'. exact (history_rewind _ _ _ _ _ _ _ _ _ _ _ _ A E).
Qed.
End Rewind.
