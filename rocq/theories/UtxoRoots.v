(** Proofs about the roots of the output set, the check of transactions against it, and a fresh output set. *)
From Verif Require Import Base Bytes MMRIndexModel MMRIndexProofs MMRHashModel MMRHashSpec MMRHashProofs FileModel BitmapModel BitmapProofs SerialModel SerialSpec
  CodecModel ConsensusModel UtxoModel UtxoSpec UtxoProofs UtxoRewind.
Local Open Scope N_scope.

Section Roots.
Variable H : bytes -> bytes.
Hypothesis HL : forall m, length (H m) = 32%nat.
Hypothesis HZ : forall m, H m <> repeat 0 32.

Lemma bag_len size hs : Forall (fun h => length h = 32%nat) hs -> length (bag H size hs) = 32%nat.
Proof.
  destruct 1 as [|h hs L F]; [reflexivity|]. cbn [bag]. destruct hs; [exact L|apply HL].
Qed.
Lemma mmr_root_len ts : length (mmr_root H ts) = 32%nat.
Proof. apply bag_len, peak_hashes_len, HL. Qed.

Lemma files_root recs h d : files H recs h d -> room_for (length recs) -> exists ts, is_mmr ts recs /\ Root H h (GetSize h) = Ret (mmr_root H ts).
Proof.
  intros (_ & ts & M & ->) R. exists ts. split; [exact M|]. unfold GetSize. rewrite (mmr_hashes_length H 0 ts).
  rewrite <- (app_nil_r (mmr_hashes H 0 ts)). exact (root_correct_gen H ts recs [] HZ M (room_W64 _ R)).
Qed.
Lemma size_inj n m : n < 2 ^ 62 -> m < 2 ^ 62 -> lidx_position (LeafIndex_At n) = lidx_position (LeafIndex_At m) -> n = m.
Proof.
  intros A B E. pose proof (num_of_size n A) as X. pose proof (num_of_size m B) as Y. rewrite E, Y in X. apply Ret_inj in X. symmetry. exact X.
Qed.
Lemma parent_binds a b a' b' p p' : length a = 32%nat -> length a' = 32%nat -> HashParentWithIndex H a b p = HashParentWithIndex H a' b' p' ->
  (a = a' /\ b = b') \/ collision H.
Proof.
  intros La La' E. unfold HashParentWithIndex in E. destruct (H_eq H _ _ E) as [Q|C]; [left|right; exact C].
  apply app_inv_length in Q; [|rewrite !be_bytes_length; reflexivity]. destruct Q as (_ & Q). apply app_inv_length in Q; [exact Q|congruence].
Qed.

(** What ValidateRoots computes, when the header's sizes are those of the files. *)
Lemma validate_ok g l s d h : represents H g l s d -> room l -> honest_sizes s h ->
  exists tk to tp tb, is_mmr tk (kernel_records (l_kernels l)) /\ is_mmr to (output_records (l_outs l)) /\ is_mmr tp (proof_records (l_outs l)) /\
    is_mmr tb (leafset_chunks (p_leaf (m_pOutputPMMR s)) (N.of_nat (length (l_outs l)))) /\
    LeafSet_Root H (p_leaf (m_pOutputPMMR s)) (N.of_nat (length (l_outs l))) = Ret (mmr_root H tb) /\
    (ValidateRoots H s h = Ret true <->
      h_kernelRoot h = mmr_root H tk /\ h_rangeProofRoot h = mmr_root H tp /\
      h_outputRoot h = (if h_version h <? 3 then mmr_root H to else H (be_bytes 8 (h_outputMMRSize h) ++ mmr_root H to ++ mmr_root H tb))) /\
    (exists r, ValidateRoots H s h = Ret r).
Proof.
  intros R (Ro & Rk) Z. pose proof (honest_sized H g l s d h R (conj Ro Rk) Z) as (Z1 & Z2). destruct Z as (S1 & S2).
  assert (Lk : length (kernel_records (l_kernels l)) = length (l_kernels l)) by apply map_length.
  assert (Lo : length (output_records (l_outs l)) = length (l_outs l)) by apply map_length.
  assert (Lp : length (proof_records (l_outs l)) = length (l_outs l)) by apply map_length.
  destruct (files_root _ _ _ (rep_kernels _ _ _ _ _ R)) as (tk & Mk & Ek); [rewrite Lk; exact Rk|].
  destruct (files_root _ _ _ (rep_outputs _ _ _ _ _ R)) as (to & Mo & Eo); [rewrite Lo; exact Ro|].
  destruct (files_root _ _ _ (rep_proofs _ _ _ _ _ R)) as (tp & Mp & Ep); [rewrite Lp; exact Ro|].
  destruct (leafset_root_defined H (p_leaf (m_pOutputPMMR s)) (N.of_nat (length (l_outs l))) HZ) as (tb & Mb & Eb).
  { clear - Ro. change (2 ^ 62) with 4611686018427387904 in Ro. lia. }
  exists tk, to, tp, tb. repeat (split; [assumption|]).
  assert (Eq : GetSize (p_hash (m_pRangeProofPMMR s)) = GetSize (p_hash (m_pOutputPMMR s))).
  { rewrite (files_size H _ _ _ (rep_outputs _ _ _ _ _ R)), (files_size H _ _ _ (rep_proofs _ _ _ _ _ R)), Lo, Lp; [reflexivity| |]; rewrite ?Lo, ?Lp; exact Ro. }
  rewrite Eq in Ep. rewrite <- S1 in Eo, Ep. rewrite <- S2 in Ek.
  assert (V : ValidateRoots H s h = Ret (bytes_eqb (mmr_root H tk) (h_kernelRoot h) &&
    bytes_eqb (if h_version h <? 3 then mmr_root H to else H (be_bytes 8 (h_outputMMRSize h) ++ mmr_root H to ++ mmr_root H tb)) (h_outputRoot h) &&
    bytes_eqb (mmr_root H tp) (h_rangeProofRoot h))).
  { unfold ValidateRoots. rewrite Ek. cbn [obind]. destruct (bytes_eqb (mmr_root H tk) (h_kernelRoot h)); [|reflexivity]. cbn [negb andb].
    rewrite Eo. cbn [obind]. destruct (h_version h <? 3).
    - cbn [obind]. destruct (bytes_eqb (mmr_root H to) (h_outputRoot h)); [|reflexivity]. cbn [negb andb]. rewrite Ep. reflexivity.
    - unfold GetNumOutputs. rewrite Z1, (num_of_size _ Ro). cbn [obind]. rewrite Eb. cbn [obind]. unfold HashParentWithIndex. rewrite <- Z1.
      destruct (bytes_eqb _ (h_outputRoot h)); [|reflexivity]. cbn [negb andb]. rewrite Ep. reflexivity. }
  rewrite V. split; [|eexists; reflexivity]. split.
  - intros E. apply Ret_inj in E. apply andb_true_iff in E as (E & E3). apply andb_true_iff in E as (E1 & E2).
    apply bytes_eqb_spec in E1, E2, E3. auto.
  - intros (E1 & E2 & E3). rewrite E1, E2, E3, !bytes_eqb_refl. reflexivity.
Qed.

(** One header, two output sets. *)
Lemma header_binds g1 g2 l1 l2 s1 s2 d1 d2 h : represents H g1 l1 s1 d1 -> represents H g2 l2 s2 d2 -> room l1 -> room l2 ->
  honest_sizes s1 h -> honest_sizes s2 h -> ValidateRoots H s1 h = Ret true -> ValidateRoots H s2 h = Ret true ->
  (kernel_records (l_kernels l1) = kernel_records (l_kernels l2) /\ output_records (l_outs l1) = output_records (l_outs l2) /\
   proof_records (l_outs l1) = proof_records (l_outs l2) /\ (3 <= h_version h -> map snd (l_outs l1) = map snd (l_outs l2))) \/ collision H.
Proof.
  intros R1 R2 Rm1 Rm2 Z1 Z2 V1 V2.
  destruct (honest_sized H _ _ _ _ _ R1 Rm1 Z1) as (A1 & B1). destruct (honest_sized H _ _ _ _ _ R2 Rm2 Z2) as (A2 & B2).
  assert (Lo : length (l_outs l1) = length (l_outs l2)). { apply Nat2N.inj, size_inj; [apply Rm1|apply Rm2|congruence]. }
  assert (Lk : length (l_kernels l1) = length (l_kernels l2)). { apply Nat2N.inj, size_inj; [apply Rm1|apply Rm2|congruence]. }
  destruct (validate_ok _ _ _ _ _ R1 Rm1 Z1) as (tk & to & tp & tb & Mk & Mo & Mp & Mb & Eb & Q & _). apply Q in V1. clear Q.
  destruct (validate_ok _ _ _ _ _ R2 Rm2 Z2) as (uk & uo & up & ub & Nk & No & Np & Nb & Eb2 & Q & _). apply Q in V2. clear Q.
  destruct V1 as (K1 & P1 & O1). destruct V2 as (K2 & P2 & O2).
  destruct (mmr_root_binding H tk uk _ _ HL Mk Nk) as [Ek|C]; [unfold kernel_records; rewrite !map_length; exact Lk|congruence| |right; exact C].
  destruct (mmr_root_binding H tp up _ _ HL Mp Np) as [Ep|C]; [unfold proof_records; rewrite !map_length; exact Lo|congruence| |right; exact C].
  assert (Lo' : length (output_records (l_outs l1)) = length (output_records (l_outs l2))) by (unfold output_records; rewrite !map_length; exact Lo).
  rewrite O1 in O2. destruct (N.ltb_spec (h_version h) 3) as [Lv|Lv].
  - destruct (mmr_root_binding H to uo _ _ HL Mo No Lo' O2) as [Eo|C]; [left|right; exact C]. repeat (split; [assumption|]). intros X. lia.
  - fold (HashParentWithIndex H (mmr_root H to) (mmr_root H tb) (h_outputMMRSize h)) in O2. fold (HashParentWithIndex H (mmr_root H uo) (mmr_root H ub) (h_outputMMRSize h)) in O2.
    destruct (parent_binds _ _ _ _ _ _ (mmr_root_len to) (mmr_root_len uo) O2) as [(Q1 & Q2)|C]; [|right; exact C].
    destruct (mmr_root_binding H to uo _ _ HL Mo No Lo' Q1) as [Eo|C]; [|right; exact C].
    rewrite Lo in Eb. rewrite Q2 in Eb.
    assert (Rn : N.of_nat (length (l_outs l2)) + 1023 < W64) by (destruct Rm2 as (X & _); clear - X; change (2 ^ 62) with 4611686018427387904 in X; lia).
    destruct (leafset_root_binds H _ _ _ _ HL HZ Rn Eb Eb2) as [S|C]; [left|right; exact C].
    repeat (split; [assumption|]). intros _. apply nth_ext with (d := false) (d' := false); [rewrite !map_length; exact Lo|].
    intros i Li. rewrite map_length in Li. specialize (S (N.of_nat i) ltac:(lia)).
    rewrite (proj1 (leafset_flags _ _) (rep_leaf_o _ _ _ _ _ R1)), (proj1 (leafset_flags _ _) (rep_leaf_o _ _ _ _ _ R2)), Nat2N.id in S. exact S.
Qed.
End Roots.

(** * Transactions *)
Section Valid.
Variable H : bytes -> bytes.
Variable env : Environment.
Lemma valid_inputs_ok g l s d height inputs : represents H g l s d -> room l ->
  exists r, valid_inputs (GetMaxCoinbaseHeight env height) d s inputs = Ret r /\
    (r = true <-> Forall (fun x => exists i c, (g <= i)%nat /\ nth_error (l_outs l) i = Some (c, true) /\ c_commitment c = i_commitment x /\ mature env c height) inputs).
Proof.
  intros R (Ro & _). apply represents_mmrs in R as (M & K & G & I). destruct l as (o, ks). cbn [l_outs l_kernels] in *.
  induction inputs as [|x inputs IH]; cbn [valid_inputs]; [exists true; split; [reflexivity|split; [constructor|reflexivity]]|].
  destruct IH as (r & E & IH). destruct (GetOutputPosition d (i_commitment x)) as [loc|] eqn:P.
  2:{ exists false. split; [reflexivity|]. split; [discriminate|]. intros F. inversion F as [|? ? (i & c & Gi & Ei & Ci & _) _]; subst.
      assert (Q : GetOutputPosition d (i_commitment x) = Some (mkLoc (LeafIndex_At (N.of_nat i)) (c_height c))) by (apply I; exists i, c; auto). congruence. }
  destruct (proj1 (I _ _) P) as (i & c & Gi & Ei & Ci & ->). cbn [loc_leaf loc_height]. rewrite (get_coin H o ks s i c true M K Ro Ei). cbn [obind oi_commitment].
  rewrite Ci, bytes_eqb_refl. cbn [negb]. unfold IsCoinbase. cbn [oi_features].
  assert (Only : forall j k, (g <= j)%nat -> nth_error o j = Some (k, true) -> c_commitment k = i_commitment x -> k = c).
  { intros j k Gj Ej Cj. assert (j = i). { apply (index_unique g o d j i k c I Gj Gi Ej Ei). congruence. } subst j. congruence. }
  destruct ((N.land (c_features c) 1 =? 1) && (GetMaxCoinbaseHeight env height <? c_height c)) eqn:Mt.
  - exists false. split; [reflexivity|]. split; [discriminate|]. intros F. inversion F as [|? ? (j & k & Gj & Ej & Cj & Mj) _]; subst.
    rewrite (Only j k Gj Ej Cj) in Mj. apply maturity_spec in Mj. congruence.
  - apply maturity_spec in Mt. exists r. split; [exact E|]. rewrite IH. split; intros F.
    + constructor; [exists i, c; auto|exact F].
    + inversion F; assumption.
Qed.
Lemma valid_outputs_ok g l s d outputs : represents H g l s d -> room l ->
  exists r, valid_outputs d s outputs = Ret r /\
    (r = true <-> Forall (fun x => forall i c, (g <= i)%nat -> nth_error (l_outs l) i = Some (c, true) -> c_commitment c <> o_commitment x) outputs).
Proof.
  intros R (Ro & _). apply represents_mmrs in R as (M & K & G & I). destruct l as (o, ks). cbn [l_outs l_kernels] in *.
  induction outputs as [|x outputs IH]; cbn [valid_outputs]; [exists true; split; [reflexivity|split; [constructor|reflexivity]]|].
  destruct IH as (r & E & IH). destruct (GetOutputPosition d (o_commitment x)) as [loc|] eqn:P.
  - destruct (proj1 (I _ _) P) as (i & c & Gi & Ei & Ci & ->). cbn [loc_leaf]. rewrite (get_coin H o ks s i c true M K Ro Ei). cbn [obind oi_commitment].
    rewrite Ci, bytes_eqb_refl. exists false. split; [reflexivity|]. split; [discriminate|]. intros F. inversion F as [|? ? F1 _]; subst. destruct (F1 i c Gi Ei Ci).
  - exists r. split; [exact E|]. rewrite IH. split; intros F; [|inversion F; assumption]. constructor; [|exact F].
    intros i c Gi Ei Ci. assert (Q : GetOutputPosition d (o_commitment x) = Some (mkLoc (LeafIndex_At (N.of_nat i)) (c_height c))) by (apply I; exists i, c; auto). congruence.
Qed.
End Valid.

(** * A fresh output set *)
Section Fresh.
Variable H : bytes -> bytes.
Lemma nil_files : files H [] [] [].
Proof. split; [reflexivity|]. exists []. split; [apply is_mmr_nil|reflexivity]. Qed.
Lemma nil_pm : pm H [] [] (mkPmmr [] [] (BF_Load [])).
Proof.
  split; [exact nil_files|]. split; [|reflexivity]. split; [exists [], []; split; [constructor|reflexivity]|].
  intros i. rewrite IsSet_bit. cbn. destruct (N.to_nat i); cbn; unfold BF_Load, GetByte; cbn; destruct (i / 8); cbn; apply N.bits_0.
Qed.
Lemma fresh_ok genesis k o d : b_kernels (fb_body genesis) = [k] -> b_outputs (fb_body genesis) = [o] -> output_ok o -> d_positions d = [] ->
  exists s, Open_fresh H genesis = Ret s /\ represents H 1 (mkLedger [(coin_of 0 o, true)] [k]) s d /\ m_pBlockHeader s = fb_header genesis /\
    GetSize (p_hash (m_pOutputPMMR s)) = 1 /\ GetSize (km_hash (m_pKernelMMR s)) = 1.
Proof.
  intros Ek Eo (Wo1 & Wo2) Ed. unfold Open_fresh. rewrite Ek, Eo.
  assert (R1 : room_for 1) by (unfold room_for; reflexivity).
  destruct (apply_kernel H [] (mkKmmr [] []) k nil_files R1) as (km & E1 & F1). rewrite E1. cbn [obind].
  destruct (pm_append H [] [] _ (OutputIdentifier_Serialize (FromOutput o)) nil_pm R1) as (om & E2 & F2 & _). rewrite E2. cbn [obind].
  destruct (pm_append H [] [] _ (RangeProof_Serialize (o_rangeProof o)) nil_pm R1) as (rm & E3 & F3 & _). rewrite E3. cbn [obind].
  unfold FromOutput in F2. rewrite (output_record _ (o_commitment o) Wo1) in F2. rewrite proof_record in F3.
  eexists. split; [reflexivity|]. split; [|split; [reflexivity|]].
  - apply represents_mmrs. split; [|split; [|split]].
    + split; [exact F2|]. split; [exact F3|exact F1].
    + constructor; [split; assumption|constructor].
    + cbn. lia.
    + intros c loc. unfold GetOutputPosition. rewrite Ed. cbn [tget]. split; [discriminate|]. intros (i & q & G & E & _). cbn [l_outs] in E.
      destruct i as [|[|i]]; [lia|discriminate E|discriminate E].
  - cbn [m_pOutputPMMR m_pKernelMMR]. split.
    + rewrite (files_size H _ _ _ (proj1 F2)); [reflexivity|exact R1].
    + rewrite (files_size H _ _ _ F1); [reflexivity|exact R1].
Qed.
End Fresh.

(** * An applied block seen through the queries *)
Section View.
Variable H : bytes -> bytes.
Variable env : Environment.
Lemma creates_nodup g height outputs : forall o o', creates g height outputs o o' -> (g <= length o)%nat -> NoDup (map o_commitment outputs).
Proof.
  induction outputs as [|x outputs IH]; intros o o' C L; [constructor|]. inversion C as [|? ? ? ? Fr C2]; subst. cbn [map]. constructor.
  - intros J. apply in_map_iff in J as (y & Ey & Jy). refine (creates_fresh g height outputs _ _ C2 (length o) (coin_of height x) y L _ Jy _).
    + rewrite nth_error_app2, Nat.sub_diag by lia. reflexivity.
    + cbn [coin_of c_commitment]. congruence.
  - apply (IH _ _ C2). rewrite app_length. lia.
Qed.
Lemma spends_at_nodup g height inputs is o o' d : indexed g o d -> spends_at env g height inputs is o o' -> NoDup (map i_commitment inputs).
Proof.
  intros I S. destruct (spends_at_marks env _ _ _ _ _ _ S) as (D & F).
  assert (A : forall inputs is p done, derived o done p -> spends_at env g height inputs is p o' ->
    NoDup (map i_commitment inputs) /\ forall i c, (g <= i)%nat -> nth_error o i = Some (c, true) -> nth_error p i = Some (c, false) -> ~ In (c_commitment c) (map i_commitment inputs)).
  { clear inputs is S D F. induction inputs as [|x inputs IH]; intros is p done D S; [split; [constructor|intros; intros []]|].
    inversion S as [|? ? i is' c ? ? G E C M S2]; subst. destruct (IH is' (spend i p) _ (derived_spend _ _ _ _ _ D E) S2) as (N & Q).
    assert (E0 : nth_error o i = Some (c, true)) by (apply D, E). split.
    - cbn [map]. constructor; [|exact N]. rewrite <- C. apply (Q i c G E0). rewrite nth_spend, Nat.eqb_refl, E. reflexivity.
    - intros j k Gj Ej Fj [J|J].
      + assert (j = i). { apply (index_unique g o d j i k c I Gj G Ej E0). congruence. } subst j. congruence.
      + refine (Q j k Gj Ej _ J). rewrite nth_spend. destruct (Nat.eqb_spec j i) as [->|]; [rewrite E in Fj; discriminate Fj|exact Fj]. }
  apply (A inputs is o [] (derived_refl o) S).
Qed.
Lemma applied_view g l s d b s' d' :
  represents H g l s d -> well_formed b ->
  N.of_nat (length (l_outs l) + length (b_outputs (fb_body b))) < 2 ^ 62 -> N.of_nat (length (l_kernels l) + length (b_kernels (fb_body b))) < 2 ^ 62 ->
  ApplyBlock H env d b s = Ret (Some (s', d')) ->
  (forall x, In x (b_inputs (fb_body b)) -> exists loc f, GetOutputPosition d (i_commitment x) = Some loc /\
     Output_GetAt s (loc_leaf loc) = Ret (Some (mkOutputId f (i_commitment x))) /\
     (N.testbit f 0 = true -> loc_height loc = 0 \/ loc_height loc + maturity env <= h_height (fb_header b)) /\
     GetOutputPosition d' (i_commitment x) = None /\ Output_GetAt s' (loc_leaf loc) = Ret None) /\
  (forall x, In x (b_outputs (fb_body b)) -> exists loc, GetOutputPosition d' (o_commitment x) = Some loc /\
     loc_height loc = h_height (fb_header b) /\ Output_GetAt s' (loc_leaf loc) = Ret (Some (mkOutputId (o_features x) (o_commitment x)))) /\
  (forall c, ~ In c (map i_commitment (b_inputs (fb_body b))) -> ~ In c (map o_commitment (b_outputs (fb_body b))) ->
     GetOutputPosition d' c = GetOutputPosition d c) /\
  NoDup (map i_commitment (b_inputs (fb_body b))) /\ NoDup (map o_commitment (b_outputs (fb_body b))).
Proof.
  intros R W F1 F2 E. pose proof (apply_ok H env g l s d b R W (conj F1 F2)) as X. rewrite E in X.
  destruct X as (l' & is & o & S & C & K & R' & _). destruct l as (o0, ks), l' as (o', ks'). cbn [l_outs l_kernels] in *.
  set (inputs := b_inputs (fb_body b)) in *. set (outputs := b_outputs (fb_body b)) in *. set (height := h_height (fb_header b)) in *.
  pose proof (proj1 (represents_mmrs _ _ _ _ _) R) as (M & Kc & G & I). pose proof (proj1 (represents_mmrs _ _ _ _ _) R') as (M' & Kc' & G' & I'). cbn [l_outs l_kernels] in *.
  destruct (spends_at_marks env _ _ _ _ _ _ S) as ((D1 & D2 & D3) & F). destruct (after_spending env g o0 d height inputs is o I S) as (_ & U).
  pose proof (creates_eq _ _ _ _ _ C) as Eo.
  assert (Lo : length o = length o0). { apply (f_equal (@length _)) in D1. rewrite !map_length in D1. exact D1. }
  assert (R0 : room_for (length o0)) by (clear - F1; unfold room_for; lia).
  assert (R1 : room_for (length o')). { rewrite Eo, app_length, Lo. unfold created. rewrite map_length. exact F1. }
  assert (Gone : forall c, In c (map i_commitment inputs) -> GetOutputPosition d' c = None).
  { intros c J. destruct (GetOutputPosition d' c) as [loc|] eqn:P; [exfalso|reflexivity]. apply I' in P as (i & k & Gi & Ei & Ci & _). rewrite Eo in Ei.
    destruct (Nat.lt_ge_cases i (length o)) as [Q|Q].
    - rewrite nth_error_app1 in Ei by exact Q. apply (U i k Gi Ei). rewrite Ci. exact J.
    - rewrite nth_error_app2 in Ei by exact Q. apply nth_error_In, in_map_iff in Ei as (x & Ex & Jx). injection Ex as Ex.
      apply in_map_iff in J as (y & Ey & Jy). apply (proj2 W y x Jy Jx). rewrite Ey, <- Ci, <- Ex. reflexivity. }
  split; [|split; [|split; [|split]]].
  - intros x Jx.
    assert (A : exists i c, (g <= i)%nat /\ nth_error o0 i = Some (c, true) /\ c_commitment c = i_commitment x /\ nth_error o i = Some (c, false) /\ mature env c height).
    { clear - S Jx. assert (B : forall xs js p q, spends_at env g height xs js p q -> In x xs ->
        exists i c, (g <= i)%nat /\ nth_error p i = Some (c, true) /\ c_commitment c = i_commitment x /\ nth_error q i = Some (c, false) /\ mature env c height).
      { induction 1 as [p|y rest i js c p q G E C M S2 IH]; intros J; [destruct J|]. destruct J as [->|J].
        - exists i, c. split; [exact G|]. split; [exact E|]. split; [exact C|]. split; [|exact M].
          destruct (spends_at_marks env _ _ _ _ _ _ S2) as ((D1 & D2 & _) & _).
          assert (Q : nth_error (map fst q) i = nth_error (map fst (spend i p)) i) by (rewrite D1; reflexivity).
          rewrite !nth_error_map, nth_spend, Nat.eqb_refl, E in Q. cbn in Q. destruct (nth_error q i) as [(c', [|])|] eqn:Z; cbn in Q; try discriminate Q.
          + specialize (D2 _ _ Z). rewrite nth_spend, Nat.eqb_refl, E in D2. discriminate D2.
          + congruence.
        - destruct (IH S2 J) as (j & k & Gj & Ej & Cj & Fj & Mj). exists j, k. split; [exact Gj|]. split; [|auto].
          rewrite nth_spend in Ej. destruct (j =? i)%nat; [|exact Ej]. destruct (nth_error p j) as [(?, ?)|]; discriminate Ej. }
      exact (B _ _ _ _ S Jx). }
    destruct A as (i & c & Gi & Ei & Ci & Fi & Mi). exists (mkLoc (LeafIndex_At (N.of_nat i)) (c_height c)), (c_features c). cbn [loc_leaf loc_height].
    split; [apply I; exists i, c; auto|]. rewrite (get_coin H o0 ks s i c true M Kc R0 Ei), Ci. split; [reflexivity|]. split; [exact Mi|].
    split; [apply Gone, in_map, Jx|].
    apply (get_coin H o' ks' s' i c false M' Kc' R1). rewrite Eo, nth_error_app1; [exact Fi|]. apply nth_error_Some. congruence.
  - intros x Jx. destruct (In_nth_error _ _ Jx) as (j & Ej).
    assert (En : nth_error o' (length o + j) = Some (coin_of height x, true)).
    { rewrite Eo, nth_error_app2 by lia. replace (length o + j - length o)%nat with j by lia. unfold created. rewrite nth_error_map, Ej. reflexivity. }
    exists (mkLoc (LeafIndex_At (N.of_nat (length o + j))) height). cbn [loc_leaf loc_height]. split; [|split; [reflexivity|]].
    + apply I'. exists (length o + j)%nat, (coin_of height x). split; [lia|]. auto.
    + exact (get_coin H o' ks' s' _ _ true M' Kc' R1 En).
  - intros c Ni No.
    assert (A : forall loc, GetOutputPosition d' c = Some loc <-> GetOutputPosition d c = Some loc).
    { intros loc. rewrite (I' c loc), (I c loc), Eo. split; intros (i & k & Gi & Ei & Ci & ->); exists i, k; (split; [exact Gi|]); (split; [|auto]).
      - destruct (Nat.lt_ge_cases i (length o)) as [Q|Q]; [rewrite nth_error_app1 in Ei by exact Q; apply D2, Ei|exfalso].
        rewrite nth_error_app2 in Ei by exact Q. apply nth_error_In, in_map_iff in Ei as (x & Ex & Jx). injection Ex as Ex.
        apply No. rewrite <- Ci, <- Ex. cbn [coin_of c_commitment]. apply in_map, Jx.
      - destruct (D3 i k Ei) as [Z|(_ & J)]; [|rewrite Ci in J; contradiction]. rewrite nth_error_app1; [exact Z|]. apply nth_error_Some. congruence. }
    destruct (GetOutputPosition d' c) as [x|] eqn:P; destruct (GetOutputPosition d c) as [y|] eqn:Q; try reflexivity.
    + symmetry. exact (proj1 (A x) eq_refl).
    + exact (eq_sym (proj1 (A x) eq_refl)).
    + exact (proj2 (A y) eq_refl).
  - exact (spends_at_nodup g height inputs is o0 o d I S).
  - apply (creates_nodup g height outputs o o' C). rewrite Lo. exact G.
Qed.
End View.
