From Verif Require Import Base Bytes MMRIndexModel MMRIndexSpec MMRIndexProofs MMRHashModel MMRHashSpec MMRHashProofs FileModel BitmapModel BitmapProofs
  SerialModel SerialProofs CodecModel CodecSpec CodecProofs ConsensusModel UtxoModel UtxoSpec.
Local Open Scope N_scope.

(** * Tables *)
Lemma tget_put {A} (t : table A) k v c : tget (tput t k v) c = if bytes_eqb c k then Some v else tget t c.
Proof. reflexivity. Qed.
Lemma bytes_eqb_sym a b : bytes_eqb a b = bytes_eqb b a.
Proof.
  destruct (bytes_eqb a b) eqn:E; symmetry; [apply bytes_eqb_spec in E; subst; apply bytes_eqb_refl|].
  apply bytes_eqb_false. apply bytes_eqb_false in E. congruence.
Qed.
Lemma tget_del {A} (t : table A) k c : tget (tdel t k) c = if bytes_eqb c k then None else tget t c.
Proof.
  induction t as [|[k' v] t IH]; cbn [tdel filter tget fst]; [destruct bytes_eqb; reflexivity|].
  fold (tdel t k). destruct (bytes_eqb k' k) eqn:E; cbn [negb].
  - apply bytes_eqb_spec in E. subst k'. rewrite IH. destruct (bytes_eqb c k); reflexivity.
  - cbn [tget]. rewrite IH. destruct (bytes_eqb c k') eqn:E'; [|reflexivity]. apply bytes_eqb_spec in E'. subst c. rewrite E. reflexivity.
Qed.
Definition mem (c : bytes) (l : list bytes) : bool := existsb (bytes_eqb c) l.
Lemma mem_in c l : mem c l = true <-> In c l.
Proof.
  unfold mem. rewrite existsb_exists. split.
  - intros (x & I & E). apply bytes_eqb_spec in E. subst. exact I.
  - intros I. exists c. split; [exact I|apply bytes_eqb_refl].
Qed.
Lemma tget_dels {A} ks : forall (t : table A) c, tget (tdels t ks) c = if mem c ks then None else tget t c.
Proof.
  induction ks as [|k ks IH]; intros t c; [reflexivity|]. cbn [tdels fold_left]. fold (tdels (tdel t k) ks). rewrite IH, tget_del.
  unfold mem. cbn [existsb]. fold (mem c ks). destruct (bytes_eqb c k), (mem c ks); reflexivity.
Qed.

Lemma some_inj {A} (x y : A) : Some x = Some y -> x = y.
Proof. congruence. Qed.

(** * Leaf numbers and positions *)
Lemma popc_le k : forall n, popc k n <= n.
Proof. induction k as [|k IH]; intros n; cbn [popc]; [lia|]. specialize (IH (n / 2)). lia. Qed.
Lemma leaf_of_position n : n < 2 ^ 62 -> LeafIndex_AtPos (lidx_position (LeafIndex_At n)) = Ret (LeafIndex_At n) /\
  lidx_position (LeafIndex_At n) <= 2 * n /\ lidx_leaf (LeafIndex_At n) = n.
Proof.
  intros L. change (2 ^ 62) with 4611686018427387904 in L.
  destruct (leaf_position_all n ltac:(lia)) as (p & E1 & E2 & E3).
  assert (B : p <= 2 * n).
  { unfold LeafIndex_At in E3. injection E3 as E3. rewrite <- E3. rewrite mul64_small by lia.
    destruct (N.le_gt_cases (CountBitsSet n) (2 * n)) as [C|C]; [rewrite sub64_small by lia; lia|].
    pose proof (CountBitsSet_popc n ltac:(lia)) as P.
    assert (Q : CountBitsSet n <= n). { rewrite P. apply popc_le. } lia. }
  rewrite E3. cbn [lidx_position lidx_leaf]. split; [|split; [exact B|reflexivity]].
  unfold LeafIndex_AtPos. rewrite (CalculateLeafIndex_correct _ _ _ E1 ltac:(lia)). cbn [obind]. f_equal. f_equal. lia.
Qed.
Lemma position_lt i n : i < 2 ^ 62 -> n < 2 ^ 62 -> (lidx_position (LeafIndex_At i) <? lidx_position (LeafIndex_At n)) = (i <? n).
Proof.
  change (2 ^ 62) with 4611686018427387904. intros L1 L2. destruct (N.ltb_spec i n) as [C|C].
  - apply N.ltb_lt. apply leaf_position_increasing; lia.
  - apply N.ltb_ge. destruct (N.eq_dec i n) as [->|D]; [lia|]. apply N.lt_le_incl, leaf_position_increasing; lia.
Qed.

(** * One pruneable MMR *)
Lemma reach_ok b : bitmap_reachable b -> byte_ok b.
Proof. intros (f & ops & F & ->). apply byte_ok_run, byte_ok_load, F. Qed.
Lemma reach_step b o : bitmap_reachable b -> bitmap_reachable (BF_step b o).
Proof. intros (f & ops & F & ->). exists f, (ops ++ [o]). split; [exact F|]. rewrite fold_left_app. reflexivity. Qed.
Definition bits (flags : list bool) (b : bitmapfile) : Prop := bitmap_reachable b /\ forall i, IsSet b i = nth (N.to_nat i) flags false.
Definition clear (i : nat) (flags : list bool) : list bool := firstn i flags ++ match skipn i flags with [] => [] | _ :: t => false :: t end.
Lemma clear_length i flags : length (clear i flags) = length flags.
Proof.
  unfold clear. rewrite app_length, firstn_length. pose proof (skipn_length i flags) as E.
  destruct (skipn i flags); cbn [length] in *; lia.
Qed.
Lemma nth_clear flags : forall i j, nth j (clear i flags) false = if (j =? i)%nat then false else nth j flags false.
Proof.
  induction flags as [|f flags IH]; intros [|i] [|j]; try reflexivity.
  - unfold clear. cbn. destruct (j =? i)%nat; reflexivity.
  - unfold clear. cbn [firstn skipn app nth]. fold (clear i flags). rewrite IH. reflexivity.
Qed.
Definition room_for (n : nat) : Prop := N.of_nat n < 2 ^ 62.
Lemma room_W64 n : room_for n -> 2 * N.of_nat n < W64.
Proof. unfold room_for. change (2 ^ 62) with 4611686018427387904. lia. Qed.

Section PM.
Variable H : bytes -> bytes.
Definition pm (recs : list bytes) (flags : list bool) (m : pmmr) : Prop :=
  files H recs (p_hash m) (p_data m) /\ bits flags (p_leaf m) /\ length flags = length recs.

Lemma files_size recs h d : files H recs h d -> room_for (length recs) -> GetSize h = lidx_position (LeafIndex_At (N.of_nat (length recs))).
Proof.
  intros (_ & ts & M & ->) R. rewrite (leaf_position_fsize ts recs M (room_W64 _ R)). unfold GetSize. apply (mmr_hashes_length H 0 ts).
Qed.
Lemma files_add recs h d x : files H recs h d -> room_for (S (length recs)) ->
  exists h', AddHashes H h x = Ret h' /\ files H (recs ++ [x]) h' (d ++ [x]).
Proof.
  intros (-> & ts & M & ->) R. destruct (AddHashes_correct H ts recs x M) as (ts' & E & M').
  { rewrite app_length. cbn [length]. replace (length recs + 1)%nat with (S (length recs)) by lia. apply room_W64, R. }
  eexists. split; [exact E|]. split; [reflexivity|]. exists ts'. split; [exact M'|reflexivity].
Qed.
Lemma files_rewind recs more h d : files H (recs ++ more) h d -> room_for (length (recs ++ more)) ->
  exists h', RewindHashes h (N.of_nat (length recs)) = Ret h' /\ files H recs h' (firstn (length recs) d).
Proof.
  intros (-> & ts & M & ->) R. pose proof (room_W64 _ R) as R2.
  assert (R1 : 2 * N.of_nat (length recs) < W64) by (rewrite app_length in R2; lia).
  destruct (append_correct H recs R1) as (us & Mu & _). destruct (mmr_prefix H ts recs us more Mu M R2) as (ext & ->).
  pose proof (mmr_hashes_length H 0 us) as L.
  unfold RewindHashes. rewrite (leaf_position_fsize us recs Mu R1). unfold GetSize. rewrite app_length.
  destruct (N.leb_spec (fsize us) (N.of_nat (length (mmr_hashes H 0 us) + length ext))) as [_|C]; [|lia].
  eexists. split; [reflexivity|]. split.
  - rewrite firstn_app, firstn_all, Nat.sub_diag. cbn [firstn]. apply app_nil_r.
  - exists us. split; [exact Mu|]. replace (N.to_nat (fsize us)) with (length (mmr_hashes H 0 us)) by lia.
    rewrite firstn_app, firstn_all, Nat.sub_diag. cbn [firstn]. apply app_nil_r.
Qed.
Lemma files_unique recs h d h' d' : files H recs h d -> files H recs h' d' -> h = h' /\ d = d'.
Proof. intros (-> & ts & M & ->) (-> & ts' & M' & ->). rewrite (is_mmr_unique _ _ _ M M'). split; reflexivity. Qed.

Lemma pm_append recs flags m x : pm recs flags m -> room_for (S (length recs)) ->
  exists m', PMMR_Append H m x = Ret m' /\ pm (recs ++ [x]) (flags ++ [true]) m' /\
    LeafIndex_AtPos (GetSize (p_hash m)) = Ret (LeafIndex_At (N.of_nat (length recs))).
Proof.
  intros (F & (B1 & B2) & L) R. assert (R0 : room_for (length recs)) by (unfold room_for in *; lia).
  destruct (files_add _ _ _ x F R) as (h' & E & F'). pose proof (files_size _ _ _ F R0) as S.
  destruct (leaf_of_position _ R0) as (P1 & P2 & P3).
  unfold PMMR_Append. rewrite S, P1. cbn [obind]. rewrite E. cbn [obind]. eexists. split; [reflexivity|]. split; [|reflexivity].
  split; [exact F'|]. split; [|rewrite !app_length; cbn; lia]. cbn [p_leaf]. split; [exact (reach_step _ (BSet _) B1)|].
  intros i. rewrite IsSet_Set by apply (reach_ok _ B1). rewrite P3, B2. destruct (N.eqb_spec i (N.of_nat (length recs))) as [->|D].
  - cbn [orb]. rewrite Nat2N.id. rewrite app_nth2 by lia. rewrite L, Nat.sub_diag. reflexivity.
  - cbn [orb]. destruct (Nat.lt_ge_cases (N.to_nat i) (length flags)) as [C|C]; [rewrite app_nth1 by exact C; reflexivity|].
    rewrite nth_overflow by exact C. rewrite nth_overflow; [reflexivity|]. rewrite app_length. cbn [length]. lia.
Qed.
Lemma pm_remove recs flags m i : pm recs flags m -> nth i flags false = true ->
  exists m', PMMR_Remove m (LeafIndex_At (N.of_nat i)) = Ret m' /\ pm recs (clear i flags) m'.
Proof.
  intros (F & (B1 & B2) & L) T. unfold PMMR_Remove. change (lidx_leaf (LeafIndex_At (N.of_nat i))) with (N.of_nat i).
  rewrite B2, Nat2N.id, T. eexists. split; [reflexivity|]. split; [exact F|]. split; [|rewrite clear_length; exact L].
  cbn [p_leaf]. split; [exact (reach_step _ (BUnset _) B1)|]. intros j. rewrite IsSet_Unset by apply (reach_ok _ B1). rewrite nth_clear, B2.
  destruct (N.eqb_spec j (N.of_nat i)) as [->|D]; [rewrite Nat2N.id, Nat.eqb_refl; reflexivity|].
  destruct (Nat.eqb_spec (N.to_nat j) i) as [C|C]; [lia|reflexivity].
Qed.
Lemma pm_unpruned recs flags m i : pm recs flags m -> room_for (length recs) -> room_for i ->
  PMMR_IsUnpruned m (LeafIndex_At (N.of_nat i)) = nth i flags false.
Proof.
  intros (F & (B1 & B2) & L) R I. unfold PMMR_IsUnpruned. rewrite (files_size _ _ _ F R).
  rewrite position_lt by assumption. change (lidx_leaf (LeafIndex_At (N.of_nat i))) with (N.of_nat i). rewrite B2, Nat2N.id.
  destruct (N.ltb_spec (N.of_nat i) (N.of_nat (length recs))) as [C|C]; [reflexivity|]. rewrite nth_overflow by lia. reflexivity.
Qed.
Lemma pm_get recs flags m i x : pm recs flags m -> room_for (length recs) -> nth i flags false = true -> nth_error recs i = Some x ->
  PMMR_GetAt m (LeafIndex_At (N.of_nat i)) = Ret (Some x).
Proof.
  intros P R T X. assert (I : (i < length recs)%nat) by (apply nth_error_Some; congruence).
  unfold PMMR_GetAt. rewrite (pm_unpruned recs flags) by (try assumption; unfold room_for in *; lia). rewrite T.
  destruct P as ((D & _) & _). unfold GetDataAt. change (lidx_leaf (LeafIndex_At (N.of_nat i))) with (N.of_nat i).
  rewrite D, Nat2N.id, X. reflexivity.
Qed.
Lemma pm_rewind recs more flags m adds : pm (recs ++ more) flags m -> room_for (length (recs ++ more)) ->
  exists m', PMMR_Rewind m (N.of_nat (length recs)) adds = Ret m' /\ files H recs (p_hash m') (p_data m') /\
    bitmap_reachable (p_leaf m') /\ forall i, IsSet (p_leaf m') i =
      ((existsb (N.eqb i) adds || nth (N.to_nat i) flags false) && (i <? N.of_nat (length recs)))%bool.
Proof.
  intros (F & (B1 & B2) & L) R. destruct (files_rewind _ _ _ _ F R) as (h' & E & F').
  unfold PMMR_Rewind. rewrite E. cbn [obind].
  assert (D : p_data m = recs ++ more) by apply F. rewrite D.
  destruct (N.leb_spec (N.of_nat (length recs)) (nlen (recs ++ more))) as [_|C]; [|unfold nlen in C; rewrite app_length in C; lia].
  eexists. split; [reflexivity|]. cbn [p_hash p_data p_leaf]. rewrite Nat2N.id. rewrite D in F'. split; [exact F'|].
  split; [exact (reach_step (p_leaf m) (BRewind (N.of_nat (length recs)) adds) B1)|].
  intros i. destruct (Rewind_ok (p_leaf m) (N.of_nat (length recs)) adds (proj1 (reach_ok _ B1))) as (_ & _ & W).
  specialize (W i). rewrite B2 in W. destruct (IsSet (BF_Rewind (p_leaf m) (N.of_nat (length recs)) adds) i).
  - destruct (proj1 W eq_refl) as (O & C). apply N.ltb_lt in C. rewrite C, andb_true_r. symmetry. apply orb_true_iff.
    destruct O as [O|O]; [left|right; exact O]. apply existsb_exists. exists i. split; [exact O|apply N.eqb_refl].
  - symmetry. apply not_true_is_false. intros T. apply andb_true_iff in T as (O & C). apply N.ltb_lt in C. apply orb_true_iff in O.
    enough (false = true) by discriminate. apply W. split; [|exact C]. destruct O as [O|O]; [left|right; exact O].
    apply existsb_exists in O as (x & I & E2). apply N.eqb_eq in E2. subst x. exact I.
Qed.
End PM.

(** * Records *)
Lemma output_record f c : f < 256 -> OutputIdentifier_Serialize (mkOutputId f c) = f :: c.
Proof.
  intros F. unfold OutputIdentifier_Serialize, Append, AppendBigInteger. cbn [oi_features oi_commitment le_bytes rev app].
  rewrite N.mod_small by exact F. reflexivity.
Qed.
Lemma proof_record p : RangeProof_Serialize p = be_bytes 8 (N.of_nat (length p)) ++ p.
Proof. reflexivity. Qed.

(** * Spending one coin *)
Lemma nth_spend o : forall i j, nth_error (spend i o) j =
  if (j =? i)%nat then option_map (fun e => (fst e, false)) (nth_error o j) else nth_error o j.
Proof.
  induction o as [|(c, b) o IH]; intros [|i] [|j]; try reflexivity.
  - cbn. destruct (j =? i)%nat; reflexivity.
  - cbn [spend nth_error Nat.eqb]. apply IH.
Qed.
Lemma spend_length o : forall i, length (spend i o) = length o.
Proof. induction o as [|(c, b) o IH]; intros [|i]; try reflexivity. cbn [spend length]. f_equal. apply IH. Qed.
Lemma spend_coins o : forall i, map fst (spend i o) = map fst o.
Proof. induction o as [|(c, b) o IH]; intros [|i]; try reflexivity. cbn [spend map]. f_equal. apply IH. Qed.
Lemma spend_flags o : forall i, map snd (spend i o) = clear i (map snd o).
Proof. induction o as [|(c, b) o IH]; intros [|i]; try reflexivity. cbn [spend map snd]. rewrite IH. reflexivity. Qed.
Lemma records_coins (o o' : outs) : map fst o = map fst o' -> output_records o = output_records o' /\ proof_records o = proof_records o'.
Proof.
  intros E. unfold output_records, proof_records.
  rewrite <- (map_map fst (fun c => c_features c :: c_commitment c) o), <- (map_map fst (fun c => c_features c :: c_commitment c) o').
  rewrite <- (map_map fst (fun c => be_bytes 8 (N.of_nat (length (c_proof c))) ++ c_proof c) o),
    <- (map_map fst (fun c => be_bytes 8 (N.of_nat (length (c_proof c))) ++ c_proof c) o').
  rewrite E. split; reflexivity.
Qed.
Definition coin_ok (c : coin) : Prop := c_features c < 256 /\ length (c_commitment c) = 33%nat.
Definition coins_ok (o : outs) : Prop := Forall (fun e => coin_ok (fst e)) o.
Lemma coins_ok_fst o o' : map fst o = map fst o' -> coins_ok o -> coins_ok o'.
Proof.
  intros E K. unfold coins_ok in *. rewrite <- (Forall_map fst coin_ok) in *. rewrite <- E. exact K.
Qed.
Lemma nth_flag (o : outs) i c b : nth_error o i = Some (c, b) -> nth i (map snd o) false = b.
Proof. intros E. apply nth_error_nth with (d := false). rewrite nth_error_map, E. reflexivity. Qed.
Lemma nth_flag_none (o : outs) i : nth_error o i = None -> nth i (map snd o) false = false.
Proof. intros E. apply nth_overflow. rewrite map_length. apply nth_error_None, E. Qed.

Lemma fold_outcome {A B} (f : A -> B -> outcome A) b l a :
  fold_left (fun (acc : outcome A) k => let* m := acc in f m k) (b :: l) (Ret a) = fold_left (fun (acc : outcome A) k => let* m := acc in f m k) l (f a b).
Proof. reflexivity. Qed.
Section Apply.
Variable H : bytes -> bytes.
Variable env : Environment.
Definition mmrs (l : ledger) (s : txhashset) : Prop :=
  pm H (output_records (l_outs l)) (map snd (l_outs l)) (m_pOutputPMMR s) /\
  pm H (proof_records (l_outs l)) (map snd (l_outs l)) (m_pRangeProofPMMR s) /\
  files H (kernel_records (l_kernels l)) (km_hash (m_pKernelMMR s)) (km_data (m_pKernelMMR s)).

Lemma get_coin o ks s i c b : mmrs (mkLedger o ks) s -> coins_ok o -> room_for (length o) -> nth_error o i = Some (c, b) ->
  Output_GetAt s (LeafIndex_At (N.of_nat i)) = Ret (if b then Some (mkOutputId (c_features c) (c_commitment c)) else None).
Proof.
  intros (M & _ & _) K R E. cbn [l_outs l_kernels] in *.
  assert (I : (i < length o)%nat) by (apply nth_error_Some; congruence).
  assert (R' : room_for (length (output_records o))) by (unfold output_records; rewrite map_length; exact R).
  pose proof (nth_flag _ _ _ _ E) as F. unfold Output_GetAt. destruct b.
  - rewrite (pm_get H _ _ _ _ (c_features c :: c_commitment c) M R' F).
    2:{ unfold output_records. rewrite nth_error_map, E. reflexivity. }
    cbn [obind]. apply nth_error_In in E. unfold coins_ok in K. rewrite Forall_forall in K. destruct (K _ E) as (K1 & K2). cbn [fst] in *.
    rewrite <- (output_record _ (c_commitment c) K1).
    pose proof (dec_output_id 1 _ (c_commitment c) K1 K2) as D.
    specialize (D [] []). rewrite app_nil_r in D. cbn [app length] in D. change (N.of_nat 0) with 0 in D. rewrite D.
    2:{ rewrite output_record by exact K1. cbn [length]. rewrite K2. reflexivity. }
    reflexivity.
  - assert (Ri : room_for i) by (clear - R I; unfold room_for in *; lia).
    unfold PMMR_GetAt. rewrite (pm_unpruned H _ _ _ i M R' Ri), F. reflexivity.
Qed.

(** ** The inputs *)
Inductive spends_at (g : nat) (height : N) : list TransactionInput -> list nat -> outs -> outs -> Prop :=
| spends_at_none o : spends_at g height [] [] o o
| spends_at_one x rest i is c o o' :
    (g <= i)%nat -> nth_error o i = Some (c, true) -> c_commitment c = i_commitment x -> mature env c height ->
    spends_at g height rest is (spend i o) o' -> spends_at g height (x :: rest) (i :: is) o o'.
Lemma spends_at_spends g height inputs is o o' : spends_at g height inputs is o o' -> spends env g height inputs o o'.
Proof. induction 1; [constructor|econstructor; eassumption]. Qed.
Lemma spends_spends_at g height inputs o o' : spends env g height inputs o o' -> exists is, spends_at g height inputs is o o'.
Proof.
  induction 1 as [|x rest i c o o' G E C M S (is & IH)]; [exists []; constructor|]. exists (i :: is). econstructor; eassumption.
Qed.

(** [o] is [o0] with some coins spent, whose commitments are in [done]. *)
Definition derived (o0 : outs) (done : list bytes) (o : outs) : Prop :=
  map fst o = map fst o0 /\
  (forall i c, nth_error o i = Some (c, true) -> nth_error o0 i = Some (c, true)) /\
  (forall i c, nth_error o0 i = Some (c, true) -> nth_error o i = Some (c, true) \/ (nth_error o i = Some (c, false) /\ In (c_commitment c) done)).
Lemma derived_refl o : derived o [] o.
Proof. split; [reflexivity|]. split; [auto|]. intros i c E. left. exact E. Qed.
Lemma derived_spend o0 done o i c : derived o0 done o -> nth_error o i = Some (c, true) ->
  derived o0 (done ++ [c_commitment c]) (spend i o).
Proof.
  intros (D1 & D2 & D3) E. split; [rewrite spend_coins; exact D1|]. split.
  - intros j k F. rewrite nth_spend in F. destruct (j =? i)%nat; [|apply D2, F]. destruct (nth_error o j) as [(?, ?)|]; discriminate F.
  - intros j k F. rewrite nth_spend. destruct (Nat.eqb_spec j i) as [->|N].
    + assert (F2 := D2 _ _ E). rewrite F in F2. injection F2 as ->. right. rewrite E. split; [reflexivity|]. apply in_or_app. right. left. reflexivity.
    + destruct (D3 j k F) as [G|(G & I)]; [left; exact G|right; split; [exact G|apply in_or_app; left; exact I]].
Qed.
Definition spent_entry (c : bytes) (i : nat) (h : N) : SpentOutput := mkSpent c (mkLoc (LeafIndex_At (N.of_nat i)) h).
Fixpoint spent_list (o : outs) (inputs : list TransactionInput) (is : list nat) : list SpentOutput :=
  match inputs, is with
  | x :: inputs', i :: is' =>
    spent_entry (i_commitment x) i (match nth_error o i with Some (c, _) => c_height c | None => 0 end) :: spent_list o inputs' is'
  | _, _ => []
  end.
Lemma spent_list_fst o o' inputs : forall is, map fst o = map fst o' -> spent_list o inputs is = spent_list o' inputs is.
Proof.
  induction inputs as [|x inputs IH]; intros [|i is] E; try reflexivity. cbn [spent_list]. rewrite (IH is E). f_equal. f_equal.
  assert (F : nth_error (map fst o) i = nth_error (map fst o') i) by (rewrite E; reflexivity). rewrite !nth_error_map in F.
  destruct (nth_error o i) as [(c1, b1)|], (nth_error o' i) as [(c2, b2)|]; cbn in F; congruence.
Qed.

Lemma index_unique g o d i j c k : indexed g o d -> (g <= i)%nat -> (g <= j)%nat -> nth_error o i = Some (c, true) ->
  nth_error o j = Some (k, true) -> c_commitment c = c_commitment k -> i = j.
Proof.
  intros X Gi Gj Ei Ej C.
  assert (A : GetOutputPosition d (c_commitment c) = Some (mkLoc (LeafIndex_At (N.of_nat i)) (c_height c))).
  { apply X. exists i, c. auto. }
  assert (B : GetOutputPosition d (c_commitment c) = Some (mkLoc (LeafIndex_At (N.of_nat j)) (c_height k))).
  { apply X. exists j, k. auto. }
  rewrite A in B. apply some_inj in B. assert (L : loc_leaf (mkLoc (LeafIndex_At (N.of_nat i)) (c_height c)) = loc_leaf (mkLoc (LeafIndex_At (N.of_nat j)) (c_height k))) by (rewrite B; reflexivity).
  cbn [loc_leaf] in L. assert (L2 : lidx_leaf (LeafIndex_At (N.of_nat i)) = lidx_leaf (LeafIndex_At (N.of_nat j))) by (rewrite L; reflexivity).
  change (N.of_nat i = N.of_nat j) in L2. lia.
Qed.
Lemma maturity_spec c height : (N.land (c_features c) 1 =? 1) && (GetMaxCoinbaseHeight env height <? c_height c) = false <-> mature env c height.
Proof.
  unfold mature, coinbase, maturity. rewrite N.bit0_odd.
  assert (E : (N.land (c_features c) 1 =? 1) = N.odd (c_features c)).
  { change 1 with (N.ones 1) at 1. rewrite N.land_ones. change (2 ^ 1) with 2. rewrite <- N.bit0_mod. rewrite N.bit0_odd.
    destruct (N.odd (c_features c)); reflexivity. }
  rewrite E. destruct (N.odd (c_features c)); cbn [andb].
  - rewrite N.ltb_ge. unfold GetMaxCoinbaseHeight, COINBASE_MATURITY. split.
    + intros L _. destruct env; lia.
    + intros L. specialize (L eq_refl). destruct env; lia.
  - split; [discriminate 2|reflexivity].
Qed.

Lemma spend_inputs_ok g ks o0 d height inputs : indexed g o0 d -> room_for (length o0) -> coins_ok o0 ->
  forall o done s sp, mmrs (mkLedger o ks) s -> derived o0 done o ->
  match spend_inputs (GetMaxCoinbaseHeight env height) d inputs s sp with
  | Ret (Some (s', sp')) => exists is o', spends_at g height inputs is o o' /\ mmrs (mkLedger o' ks) s' /\
      derived o0 (done ++ map i_commitment inputs) o' /\ sp' = sp ++ spent_list o inputs is
  | Ret None => ~ exists o', spends env g height inputs o o'
  | Fault => (~ exists o', spends env g height inputs o o') /\ ~ NoDup (done ++ map i_commitment inputs)
  | Throw => False
  end.
Proof.
  intros X R K. induction inputs as [|x inputs IH]; intros o done s sp M D; cbn [spend_inputs].
  { exists [], o. cbn [spent_list map]. rewrite !app_nil_r. split; [constructor|]. split; [exact M|]. split; [exact D|reflexivity]. }
  assert (Lo : length o = length o0). { rewrite <- (map_length fst o), (proj1 D), map_length. reflexivity. }
  assert (Ko : coins_ok o) by (apply (coins_ok_fst o0); [symmetry; apply D|exact K]).
  assert (Only : forall o', spends env g height (x :: inputs) o o' -> exists i c, (g <= i)%nat /\ nth_error o i = Some (c, true) /\
    c_commitment c = i_commitment x /\ mature env c height /\ spends env g height inputs (spend i o) o' /\
    GetOutputPosition d (i_commitment x) = Some (mkLoc (LeafIndex_At (N.of_nat i)) (c_height c))).
  { intros o' S. inversion S as [|x' rest i c o1 o2 G E C Mt S2]; subst. exists i, c. repeat (split; [assumption|]).
    apply X. exists i, c. repeat split; try assumption. apply D, E. }
  destruct (GetOutputPosition d (i_commitment x)) as [loc|] eqn:P.
  2:{ intros (o' & S). destruct (Only o' S) as (i & c & A). destruct A as (_ & _ & _ & _ & _ & A). discriminate A. }
  destruct (proj1 (X _ _) P) as (i & c & G & E0 & C & ->). cbn [loc_leaf loc_height].
  assert (I : exists b, nth_error o i = Some (c, b) /\ (b = true \/ In (c_commitment c) done)).
  { destruct (proj2 (proj2 D) i c E0) as [E|(E & J)]; [exists true|exists false]; split; try exact E; [left; reflexivity|right; exact J]. }
  destruct I as (b & E & J).
  assert (Only2 : forall o', spends env g height (x :: inputs) o o' -> b = true /\ mature env c height /\ spends env g height inputs (spend i o) o').
  { intros o' S. destruct (Only o' S) as (j & k & Gj & Ej & Cj & Mj & Sj & _).
    assert (j = i). { apply (index_unique g o0 d j i k c X Gj G); [apply D, Ej|exact E0|congruence]. }
    subst j. rewrite E in Ej. injection Ej as -> ->. auto. }
  rewrite (get_coin o ks s i c b M Ko ltac:(rewrite Lo; exact R) E). cbn [obind]. destruct b.
  2:{ destruct J as [J|J]; [discriminate J|]. split.
      - intros (o' & S). destruct (Only2 o' S) as (? & _). discriminate.
      - intros ND. cbn [map] in ND. rewrite C in J. apply NoDup_remove_2 in ND. apply ND. apply in_or_app. left. exact J. }
  unfold IsCoinbase. cbn [oi_features].
  destruct ((N.land (c_features c) 1 =? 1) && (GetMaxCoinbaseHeight env height <? c_height c)) eqn:Mt.
  { intros (o' & S). destruct (Only2 o' S) as (_ & A & _). apply maturity_spec in A. congruence. }
  apply maturity_spec in Mt. destruct M as (M1 & M2 & M3). cbn [l_outs l_kernels] in *.
  pose proof (nth_flag _ _ _ _ E) as F.
  destruct (pm_remove H _ _ _ i M1 F) as (om & E1 & M1'). destruct (pm_remove H _ _ _ i M2 F) as (rm & E2 & M2').
  rewrite E1. cbn [obind]. rewrite E2. cbn [obind].
  destruct (records_coins (spend i o) o (spend_coins o i)) as (R1 & R2). rewrite <- R1 in M1'. rewrite <- R2 in M2'. rewrite <- spend_flags in M1', M2'.
  specialize (IH (spend i o) (done ++ [c_commitment c]) (mkSet (m_pKernelMMR s) om rm (m_pBlockHeader s))
    (sp ++ [mkSpent (i_commitment x) (mkLoc (LeafIndex_At (N.of_nat i)) (c_height c))]) (conj M1' (conj M2' M3)) (derived_spend _ _ _ _ _ D E)).
  assert (A : (done ++ [c_commitment c]) ++ map i_commitment inputs = done ++ map i_commitment (x :: inputs)).
  { rewrite <- app_assoc, C. reflexivity. }
  rewrite A in IH.
  destruct (spend_inputs _ d inputs _ _) as [[(s', sp')|]| |].
  - destruct IH as (is & o' & S & M' & D' & Sp). exists (i :: is), o'. split; [econstructor; eassumption|]. split; [exact M'|]. split; [exact D'|].
    rewrite Sp, <- app_assoc. f_equal. cbn [spent_list app]. rewrite E. cbv [spent_entry]. f_equal. apply spent_list_fst, spend_coins.
  - intros (o' & S). apply IH. exists o'. apply Only2, S.
  - exact IH.
  - destruct IH as (I1 & I2). split; [|exact I2]. intros (o' & S). apply I1. exists o'. apply Only2, S.
Qed.

(** ** The outputs *)
Definition index_except (X : list bytes) (g : nat) (o : outs) (d : blockdb) : Prop :=
  forall c loc, ~ In c X -> (GetOutputPosition d c = Some loc <->
    exists i k, (g <= i)%nat /\ nth_error o i = Some (k, true) /\ c_commitment k = c /\ loc = mkLoc (LeafIndex_At (N.of_nat i)) (c_height k)).
Definition none_unspent (X : list bytes) (g : nat) (o : outs) : Prop :=
  forall i c, (g <= i)%nat -> nth_error o i = Some (c, true) -> ~ In (c_commitment c) X.
Definition same_tables (d d' : blockdb) : Prop :=
  d_blocks d' = d_blocks d /\ d_headers d' = d_headers d /\ d_sums d' = d_sums d /\ d_spent d' = d_spent d.
Definition output_ok (x : TransactionOutput) : Prop := o_features x < 256 /\ length (o_commitment x) = 33%nat.
Definition created (height : N) (outputs : list TransactionOutput) : outs := map (fun x => (coin_of height x, true)) outputs.
Lemma created_coins_ok height outputs : Forall output_ok outputs -> coins_ok (created height outputs).
Proof. intros F. unfold coins_ok, created. rewrite Forall_map. eapply Forall_impl; [|exact F]. intros x (A & B). split; assumption. Qed.
Lemma creates_eq g height outputs : forall o o', creates g height outputs o o' -> o' = o ++ created height outputs.
Proof.
  induction outputs as [|x outputs IH]; intros o o' C.
  - inversion C; subst. cbn [created map]. rewrite app_nil_r. reflexivity.
  - inversion C as [|? ? ? ? Fr C2]; subst. rewrite (IH _ _ C2), <- app_assoc. reflexivity.
Qed.
Lemma index_add X g o d height x : index_except X g o d -> (g <= length o)%nat ->
  (forall i c, (g <= i)%nat -> nth_error o i = Some (c, true) -> c_commitment c <> o_commitment x) ->
  index_except X g (o ++ [(coin_of height x, true)])
    (AddOutputPosition d (o_commitment x) (mkLoc (LeafIndex_At (N.of_nat (length o))) height)).
Proof.
  intros I L F c loc N. unfold GetOutputPosition, AddOutputPosition, set_positions. cbn [d_positions]. rewrite tget_put.
  destruct (bytes_eqb c (o_commitment x)) eqn:B.
  - apply bytes_eqb_spec in B. subst c. split.
    + intros E. apply some_inj in E. exists (length o), (coin_of height x). split; [exact L|].
      rewrite nth_error_app2, Nat.sub_diag by lia. split; [reflexivity|]. split; [reflexivity|]. symmetry. exact E.
    + intros (i & k & G & E & C & ->). destruct (Nat.lt_ge_cases i (length o)) as [Q|Q].
      * rewrite nth_error_app1 in E by exact Q. destruct (F i k G E C).
      * assert (i = length o). { assert (i < length (o ++ [(coin_of height x, true)]))%nat by (apply nth_error_Some; congruence).
          rewrite app_length in H0. cbn [length] in H0. lia. }
        subst i. rewrite nth_error_app2, Nat.sub_diag in E by lia. cbn in E. apply some_inj in E. injection E as <-. reflexivity.
  - fold (GetOutputPosition d c). rewrite (I c loc N). split.
    + intros (i & k & G & E & C & ->). exists i, k. split; [exact G|]. rewrite nth_error_app1 by (apply nth_error_Some; congruence). auto.
    + intros (i & k & G & E & C & ->). exists i, k. split; [exact G|]. destruct (Nat.lt_ge_cases i (length o)) as [Q|Q].
      * rewrite nth_error_app1 in E by exact Q. auto.
      * exfalso. assert (i = length o). { assert (i < length (o ++ [(coin_of height x, true)]))%nat by (apply nth_error_Some; congruence).
          rewrite app_length in H0. cbn [length] in H0. lia. }
        subst i. rewrite nth_error_app2, Nat.sub_diag in E by lia. cbn in E. apply some_inj in E. injection E as <-. cbn [coin_of c_commitment] in C.
        subst c. rewrite bytes_eqb_refl in B. discriminate.
Qed.

Lemma add_outputs_ok g X height ks outputs : forall o s d, mmrs (mkLedger o ks) s -> (g <= length o)%nat ->
  index_except X g o d -> none_unspent X g o -> Forall output_ok outputs -> (forall x, In x outputs -> ~ In (o_commitment x) X) ->
  room_for (length (o ++ created height outputs)) ->
  match add_outputs H height outputs s d with
  | Ret (Some (s', d')) => creates g height outputs o (o ++ created height outputs) /\ mmrs (mkLedger (o ++ created height outputs) ks) s' /\
      index_except X g (o ++ created height outputs) d' /\ none_unspent X g (o ++ created height outputs) /\ same_tables d d'
  | Ret None => ~ exists o', creates g height outputs o o'
  | _ => False
  end.
Proof.
  induction outputs as [|x outputs IH]; intros o s d M L I U W N R; cbn [add_outputs].
  { cbn [created map]. rewrite app_nil_r. split; [constructor|]. split; [exact M|]. split; [exact I|]. split; [exact U|]. repeat split. }
  inversion W as [|x' o' (W1 & W2) W3]; subst. pose proof (N x (or_introl eq_refl)) as Nx.
  assert (R1 : room_for (S (length o))). { clear - R. unfold room_for in *. rewrite app_length in R. cbn [created map length] in R. lia. }
  assert (R0 : room_for (length o)) by (clear - R1; unfold room_for in *; lia).
  assert (Len : forall r : outs, length (output_records r) = length r /\ length (proof_records r) = length r).
  { intros r. unfold output_records, proof_records. rewrite !map_length. split; reflexivity. }
  destruct (GetOutputPosition d (o_commitment x)) as [loc|] eqn:P.
  - destruct (proj1 (I _ _ Nx) P) as (i & k & G & E & C & ->). cbn [loc_leaf].
    assert (Li : (i < length o)%nat) by (apply nth_error_Some; congruence).
    pose proof (proj1 M) as M0. cbn [l_outs] in M0. rewrite (pm_unpruned H _ _ _ i M0), (nth_flag _ _ _ _ E).
    2:{ rewrite (proj1 (Len _)). exact R0. }
    2:{ clear - R0 Li. unfold room_for in *. lia. }
    intros (o' & Cr). inversion Cr as [|? ? ? ? Fr _]; subst. exact (Fr i k G E C).
  - assert (F : forall i c, (g <= i)%nat -> nth_error o i = Some (c, true) -> c_commitment c <> o_commitment x).
    { intros i c G E C. assert (GetOutputPosition d (o_commitment x) = Some (mkLoc (LeafIndex_At (N.of_nat i)) (c_height c))); [|congruence].
      apply (I _ _ Nx). exists i, c. auto. }
    destruct M as (M1 & M2 & M3). cbn [l_outs l_kernels] in *.
    destruct (pm_append H _ _ _ (OutputIdentifier_Serialize (FromOutput x)) M1) as (om & E1 & M1' & EL).
    { rewrite (proj1 (Len _)). exact R1. }
    destruct (pm_append H _ _ _ (RangeProof_Serialize (o_rangeProof x)) M2) as (rm & E2 & M2' & _).
    { rewrite (proj2 (Len _)). exact R1. }
    rewrite EL. cbn [obind]. rewrite E1. cbn [obind]. rewrite E2. cbn [obind].
    rewrite (proj1 (Len o)).
    unfold FromOutput in M1'. rewrite (output_record _ (o_commitment x) W1) in M1'. rewrite proof_record in M2'.
    assert (Q : o ++ created height (x :: outputs) = (o ++ [(coin_of height x, true)]) ++ created height outputs).
    { rewrite <- app_assoc. reflexivity. }
    rewrite Q in R |- *.
    set (o1 := o ++ [(coin_of height x, true)]) in *.
    assert (M' : mmrs (mkLedger o1 ks) (mkSet (m_pKernelMMR s) om rm (m_pBlockHeader s))).
    { split; [|split; [|exact M3]]; cbn [l_outs m_pOutputPMMR m_pRangeProofPMMR].
      - replace (output_records o1) with (output_records o ++ [o_features x :: o_commitment x]) by (unfold output_records, o1; rewrite map_app; reflexivity).
        replace (map snd o1) with (map snd o ++ [true]) by (unfold o1; rewrite map_app; reflexivity). exact M1'.
      - replace (proof_records o1) with (proof_records o ++ [be_bytes 8 (N.of_nat (length (o_rangeProof x))) ++ o_rangeProof x]) by (unfold proof_records, o1; rewrite map_app; reflexivity).
        replace (map snd o1) with (map snd o ++ [true]) by (unfold o1; rewrite map_app; reflexivity). exact M2'. }
    specialize (IH o1 _ (AddOutputPosition d (o_commitment x) (mkLoc (LeafIndex_At (N.of_nat (length o))) height)) M').
    assert (L1 : (g <= length o1)%nat) by (unfold o1; rewrite app_length; lia).
    assert (U1 : none_unspent X g o1).
    { intros i c G E. unfold o1 in E. destruct (Nat.lt_ge_cases i (length o)) as [Z|Z].
      - rewrite nth_error_app1 in E by exact Z. exact (U i c G E).
      - rewrite nth_error_app2 in E by exact Z. destruct (i - length o)%nat as [|[|]]; cbn in E; try discriminate E. injection E as <-. exact Nx. }
    specialize (IH L1 (index_add X g o d height x I L F) U1 W3 (fun y J => N y (or_intror J)) R).
    destruct (add_outputs H height outputs _ _) as [[(s', d')|]| |]; try exact IH.
    + destruct IH as (C & M2'' & I2 & U2 & T). split; [econstructor; eassumption|]. split; [exact M2''|]. split; [exact I2|]. split; [exact U2|]. exact T.
    + intros (o' & Cr). apply IH. exists o'. inversion Cr; subst. assumption.
Qed.

(** ** The kernels *)
Lemma add_kernels_cons k kernels m m' : ApplyKernel H m k = Ret m' -> add_kernels H (k :: kernels) m = add_kernels H kernels m'.
Proof. intros E. unfold add_kernels. rewrite fold_outcome, E. reflexivity. Qed.
Lemma apply_kernel ks m k : files H (kernel_records ks) (km_hash m) (km_data m) -> room_for (S (length ks)) ->
  exists m', ApplyKernel H m k = Ret m' /\ files H (kernel_records (ks ++ [k])) (km_hash m') (km_data m').
Proof.
  intros F R. destruct (files_add H _ _ _ (Kernel_Serialize 1 k) F) as (h' & E & F').
  { unfold kernel_records. rewrite map_length. exact R. }
  unfold ApplyKernel. rewrite E. cbn [obind]. eexists. split; [reflexivity|]. cbn [km_hash km_data].
  assert (Q : kernel_records (ks ++ [k]) = kernel_records ks ++ [Kernel_Serialize 1 k]) by (unfold kernel_records; apply map_app).
  rewrite Q. exact F'.
Qed.
Lemma add_kernels_ok kernels : forall ks m, files H (kernel_records ks) (km_hash m) (km_data m) -> room_for (length (ks ++ kernels)) ->
  exists m', add_kernels H kernels m = Ret m' /\ files H (kernel_records (ks ++ kernels)) (km_hash m') (km_data m').
Proof.
  induction kernels as [|k kernels IH]; intros ks m F R.
  { exists m. rewrite app_nil_r. split; [reflexivity|exact F]. }
  destruct (apply_kernel ks m k F) as (m1 & E & F').
  { clear - R. unfold room_for in *. rewrite app_length in R. cbn [length] in R. lia. }
  rewrite (add_kernels_cons _ _ _ _ E).
  assert (Q : ks ++ k :: kernels = (ks ++ [k]) ++ kernels) by (rewrite <- app_assoc; reflexivity). rewrite Q in R |- *.
  exact (IH _ _ F' R).
Qed.

Lemma Forall2_impl {A B} (P Q : A -> B -> Prop) l l' : (forall a b, P a b -> Q a b) -> Forall2 P l l' -> Forall2 Q l l'.
Proof. intros F. induction 1; constructor; auto. Qed.
Lemma Forall2_in_l {A B} (P : A -> B -> Prop) l l' : Forall2 P l l' -> forall x, In x l -> exists y, P x y.
Proof. induction 1 as [|a b l l' Q F IH]; intros x J; [destruct J|]. destruct J as [J|J]; [subst; exists b; exact Q|apply IH, J]. Qed.
Lemma spends_at_fun g height inputs o d : indexed g o d -> forall is2 o2 is1 o1,
  spends_at g height inputs is2 o o2 -> spends_at g height inputs is1 o o1 -> o2 = o1.
Proof.
  intros I. assert (A : forall inputs o' done, derived o done o' -> forall is2 o2 is1 o1,
    spends_at g height inputs is2 o' o2 -> spends_at g height inputs is1 o' o1 -> o2 = o1).
  { clear inputs. induction inputs as [|x inputs IH]; intros o' done D is2 o2 is1 o1 S2 S1.
    - inversion S2; inversion S1; subst. reflexivity.
    - inversion S2 as [|? ? i2 is2' c2 ? ? G2 E2 C2 M2 T2]; inversion S1 as [|? ? i1 is1' c1 ? ? G1 E1 C1 M1 T1]; subst.
      assert (i2 = i1). { apply (index_unique g o d i2 i1 c2 c1 I G2 G1); [apply D, E2|apply D, E1|congruence]. }
      subst i2. exact (IH _ _ (derived_spend _ _ _ _ _ D E1) _ _ _ _ T2 T1). }
  exact (A inputs o [] (derived_refl o)).
Qed.

(** ** The whole block *)
Lemma leafset_flags o b : leafset o b <-> forall i, IsSet b i = nth (N.to_nat i) (map snd o) false.
Proof.
  split.
  - intros L i. specialize (L i). destruct (nth_error o (N.to_nat i)) as [(c, f)|] eqn:E.
    + rewrite (nth_flag _ _ _ _ E). destruct f, (IsSet b i); try reflexivity.
      * apply L. exists c. reflexivity.
      * destruct (proj1 L eq_refl) as (k & F). congruence.
    + rewrite (nth_flag_none _ _ E). destruct (IsSet b i); [|reflexivity]. destruct (proj1 L eq_refl) as (k & F). congruence.
  - intros L i. rewrite L. split.
    + intros T. destruct (nth_error o (N.to_nat i)) as [(c, f)|] eqn:E.
      * rewrite (nth_flag _ _ _ _ E) in T. subst f. exists c. reflexivity.
      * rewrite (nth_flag_none _ _ E) in T. discriminate.
    + intros (c & E). apply (nth_flag _ _ _ _ E).
Qed.
Lemma represents_mmrs g l s d : represents H g l s d <-> mmrs l s /\ coins_ok (l_outs l) /\ (g <= length (l_outs l))%nat /\ indexed g (l_outs l) d.
Proof.
  assert (Len : forall r : outs, length (output_records r) = length r /\ length (proof_records r) = length r).
  { intros r. unfold output_records, proof_records. rewrite !map_length. split; reflexivity. }
  split.
  - intros [A B (C1 & C2) K O P L1 L2 I]. split; [|split; [exact A|split; [exact B|exact I]]].
    split; [|split; [|exact K]]; (split; [assumption|]; split; [|rewrite map_length]).
    + split; [exact C1|]. apply leafset_flags, L1.
    + rewrite (proj1 (Len _)). reflexivity.
    + split; [exact C2|]. apply leafset_flags, L2.
    + rewrite (proj2 (Len _)). reflexivity.
  - intros (((F1 & (B1 & L1) & _) & (F2 & (B2 & L2) & _) & F3) & K & G & I). constructor; try assumption; [split; assumption| |]; apply leafset_flags; assumption.
Qed.

Lemma spends_at_marks g height inputs is o o' : spends_at g height inputs is o o' ->
  derived o (map i_commitment inputs) o' /\
  Forall2 (fun x i => (g <= i)%nat /\ exists c, nth_error o i = Some (c, true) /\ c_commitment c = i_commitment x /\ nth_error o' i = Some (c, false)) inputs is.
Proof.
  induction 1 as [o|x rest i is c o o' G E C M S ((D1 & D2 & D3) & F)].
  { split; [apply derived_refl|constructor]. }
  assert (Ei : nth_error o' i = Some (c, false)).
  { assert (A : nth_error (map fst o') i = nth_error (map fst o) i) by (rewrite D1, spend_coins; reflexivity).
    rewrite !nth_error_map, E in A. destruct (nth_error o' i) as [(c', [|])|] eqn:Q; cbn in A; try discriminate A.
    - specialize (D2 _ _ Q). rewrite nth_spend, Nat.eqb_refl, E in D2. discriminate D2.
    - injection A as ->. reflexivity. }
  split.
  - split; [rewrite D1; apply spend_coins|]. split.
    + intros j k Q. specialize (D2 _ _ Q). rewrite nth_spend in D2. destruct (j =? i)%nat; [|exact D2]. destruct (nth_error o j) as [(?, ?)|]; discriminate D2.
    + intros j k Q. destruct (Nat.eq_dec j i) as [->|Nj].
      * rewrite E in Q. injection Q as <-. right. split; [exact Ei|]. left. symmetry. exact C.
      * destruct (D3 j k) as [Z|(Z & J)]; [rewrite nth_spend; destruct (Nat.eqb_spec j i); [contradiction|exact Q]|left; exact Z|right].
        split; [exact Z|right; exact J].
  - constructor; [split; [exact G|exists c; auto]|]. eapply Forall2_impl; [|exact F]. intros y j (Gj & k & Ej & Cj & Fj). split; [exact Gj|].
    exists k. split; [|auto]. rewrite nth_spend in Ej. destruct (j =? i)%nat; [|exact Ej]. destruct (nth_error o j) as [(?, ?)|]; discriminate Ej.
Qed.

Lemma after_spending g o d height inputs is o' : indexed g o d -> spends_at g height inputs is o o' ->
  index_except (map i_commitment inputs) g o' d /\ none_unspent (map i_commitment inputs) g o'.
Proof.
  intros I S. destruct (spends_at_marks _ _ _ _ _ _ S) as ((D1 & D2 & D3) & F). split.
  - intros c loc N. rewrite (I c loc). split; intros (i & k & G & E & C & ->); exists i, k; (split; [exact G|]); (split; [|auto]).
    + destruct (D3 i k E) as [Z|(Z & J)]; [exact Z|]. rewrite C in J. contradiction.
    + apply D2, E.
  - intros j k Gj Ej J. apply in_map_iff in J as (x & Cx & Jx).
    destruct (Forall2_in_l _ _ _ F x Jx) as (i & (Gi & c & Ei & Ci & Fi)).
    assert (j = i). { apply (index_unique g o d j i k c I Gj Gi (D2 _ _ Ej) Ei). congruence. }
    subst j. congruence.
Qed.

Lemma positions_removed d ks c : GetOutputPosition (RemoveOutputPositions d ks) c = if mem c ks then None else GetOutputPosition d c.
Proof. unfold GetOutputPosition, RemoveOutputPositions, set_positions. cbn [d_positions]. apply tget_dels. Qed.

Lemma after_removal X g o d : index_except X g o d -> none_unspent X g o -> indexed g o (RemoveOutputPositions d X).
Proof.
  intros I U c loc. rewrite positions_removed. destruct (mem c X) eqn:Mc.
  - apply mem_in in Mc. split; [discriminate|]. intros (i & k & G & E & C & _). destruct (U i k G E). rewrite C. exact Mc.
  - apply I. intros J. apply mem_in in J. congruence.
Qed.

Definition fits (b : FullBlock) (l : ledger) : Prop :=
  room_for (length (l_outs l) + length (b_outputs (fb_body b))) /\ room_for (length (l_kernels l) + length (b_kernels (fb_body b))).

Lemma apply_ok g l s d b : represents H g l s d -> well_formed b -> fits b l ->
  match ApplyBlock H env d b s with
  | Ret (Some (s', d')) => exists l' is o, spends_at g (h_height (fb_header b)) (b_inputs (fb_body b)) is (l_outs l) o /\
      creates g (h_height (fb_header b)) (b_outputs (fb_body b)) o (l_outs l') /\ l_kernels l' = l_kernels l ++ b_kernels (fb_body b) /\
      represents H g l' s' d' /\ m_pBlockHeader s' = fb_header b /\
      d_blocks d' = d_blocks d /\ d_headers d' = d_headers d /\ d_sums d' = d_sums d /\
      d_spent d' = tput (d_spent d) (BlockHeader_GetHash (fb_header b)) (spent_list (l_outs l) (b_inputs (fb_body b)) is)
  | Ret None => ~ exists l', applies env g b l l'
  | Fault => (~ exists l', applies env g b l l') /\ ~ NoDup (map i_commitment (b_inputs (fb_body b)))
  | Throw => False
  end.
Proof.
  intros Rep (W1 & W2) (R1 & R2). apply represents_mmrs in Rep as (M & K & G & I). destruct l as (o, ks). cbn [l_outs l_kernels] in *.
  assert (R0 : room_for (length o)) by (clear - R1; unfold room_for in *; lia).
  unfold ApplyBlock. set (height := h_height (fb_header b)). set (inputs := b_inputs (fb_body b)) in *. set (outputs := b_outputs (fb_body b)) in *.
  pose proof (spend_inputs_ok g ks o d height inputs I R0 K o [] s [] M (derived_refl o)) as P. cbn [app] in P.
  destruct (spend_inputs (GetMaxCoinbaseHeight env height) d inputs s []) as [[(s1, sp)|]| |]; cbn [obind].
  2:{ intros (l' & (o1 & S & _) & _). apply P. exists o1. exact S. }
  2: exact P.
  2:{ destruct P as (P1 & P2). split; [|exact P2]. intros (l' & (o1 & S & _) & _). apply P1. exists o1. exact S. }
  destruct P as (is & o1 & S & M1 & D1 & ->).
  assert (Only : forall l', applies env g b (mkLedger o ks) l' -> creates g height outputs o1 (l_outs l')).
  { intros l' ((o2 & S2 & C2) & _). apply spends_spends_at in S2 as (is2 & S2). cbn [l_outs] in S2. fold inputs height in S2. fold outputs height in C2.
    assert (E : o2 = o1); [|subst o2; exact C2].
    destruct (spends_at_marks _ _ _ _ _ _ S) as (Da & Fa). destruct (spends_at_marks _ _ _ _ _ _ S2) as (Db & Fb).
    pose proof (after_spending _ _ _ _ _ _ _ I S) as (_ & Ua). pose proof (after_spending _ _ _ _ _ _ _ I S2) as (_ & Ub).
    exact (spends_at_fun g height inputs o d I is2 o2 is o1 S2 S). }
  destruct (after_spending g o d height inputs is o1 I S) as (I1 & U1).
  assert (Lo1 : length o1 = length o). { rewrite <- (map_length fst o1), (proj1 D1), map_length. reflexivity. }
  set (d1 := AddSpentPositions d (BlockHeader_GetHash (fb_header b)) (spent_list o inputs is)).
  assert (I1' : index_except (map i_commitment inputs) g o1 d1) by exact I1.
  assert (Wo : Forall output_ok outputs). { eapply Forall_impl; [|exact W1]. intros x (A & B). split; assumption. }
  pose proof (add_outputs_ok g (map i_commitment inputs) height ks outputs o1 s1 d1 M1 ltac:(rewrite Lo1; exact G) I1' U1 Wo) as P.
  assert (Wx : forall x, In x outputs -> ~ In (o_commitment x) (map i_commitment inputs)).
  { intros x Jx Jc. apply in_map_iff in Jc as (y & Cy & Jy). exact (W2 y x Jy Jx Cy). }
  specialize (P Wx). assert (R3 : room_for (length (o1 ++ created height outputs))).
  { rewrite app_length, Lo1. unfold created. rewrite map_length. exact R1. }
  specialize (P R3).
  destruct (add_outputs H height outputs s1 d1) as [[(s2, d2)|]| |]; cbn [obind]; try exact (False_ind _ P).
  2:{ intros (l' & A). apply P. exists (l_outs l'). apply Only, A. }
  destruct P as (C & M2 & I2 & U2 & T).
  destruct M2 as (M2a & M2b & M2c). cbn [l_outs l_kernels] in *.
  destruct (add_kernels_ok (b_kernels (fb_body b)) ks (m_pKernelMMR s2) M2c ltac:(rewrite app_length; exact R2)) as (km & Ek & Fk).
  rewrite Ek. cbn [obind].
  exists (mkLedger (o1 ++ created height outputs) (ks ++ b_kernels (fb_body b))), is, o1. cbn [l_outs l_kernels].
  split; [exact S|]. split; [exact C|]. split; [reflexivity|]. split.
  { apply represents_mmrs. cbn [l_outs l_kernels m_pOutputPMMR m_pRangeProofPMMR m_pKernelMMR]. split; [|split; [|split]].
    - split; [exact M2a|]. split; [exact M2b|exact Fk].
    - apply Forall_app. split; [|apply created_coins_ok, Wo]. apply (coins_ok_fst o); [symmetry; apply D1|exact K].
    - rewrite app_length, Lo1. clear - G. lia.
    - apply after_removal; assumption. }
  split; [reflexivity|]. destruct T as (T1 & T2 & T3 & T4). cbn [RemoveOutputPositions set_positions d_blocks d_headers d_sums d_spent].
  repeat split; assumption.
Qed.
End Apply.
