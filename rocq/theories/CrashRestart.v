(** Proofs for C22: what a restart makes of a crash state. *)
From Verif Require Import Base Bytes FileModel FileProofs BitmapModel BitmapSpec BitmapProofs CrashModel CrashSpec CrashProofs CrashMain.
Local Open Scope N_scope.

Lemma get_rec l i r : recs 32 l -> nth_error l (N.to_nat i) = Some r -> nlen l * 32 < W64 -> DF_GetDataAt 32 (DF_Load (concat l)) i = Ret r.
Proof.
  intros H E W. assert (G : i < nlen l) by (unfold nlen; assert (N.to_nat i < length l)%nat by (apply nth_error_Some; congruence); lia).
  unfold DF_GetDataAt, AOF_Read. cbn [DF_Load AOF_Load m_pFile m_bufferIndex disk]. unfold mul64. rewrite N.mod_small by lia.
  rewrite (concat_len 32 eq_refl) by assumption. replace (i * 32 <? 32 * nlen l) with true by lia. replace (i * 32 + 32 <=? 32 * nlen l) with true by lia.
  f_equal. apply slice_concat; assumption || lia.
Qed.
Lemma read_all l : recs 32 l -> nlen l * 32 < W64 -> forall n i, (N.to_nat i + n = length l)%nat ->
  read_hashes (DF_Load (concat l)) i n = Ret (skipn (N.to_nat i) l).
Proof.
  intros H W n. induction n as [|n IH]; intros i E; cbn [read_hashes].
  - rewrite skipn_all2 by lia. reflexivity.
  - destruct (nth_error l (N.to_nat i)) as [r|] eqn:N1; [|apply nth_error_None in N1; lia].
    rewrite (get_rec l i r H N1 W). cbn [obind]. rewrite IH by lia. cbn [obind]. f_equal.
    apply nth_error_split in N1. destruct N1 as (l1 & l2 & -> & L). replace (N.to_nat (i + 1)) with (S (length l1)) by lia.
    rewrite <- L. rewrite !skipn_app, (skipn_all l1), (skipn_all2 l1) by lia. rewrite Nat.sub_diag.
    replace (S (length l1) - length l1)%nat with 1%nat by lia. reflexivity.
Qed.
Lemma Chain_Load_ok g g' hs : recs 32 (g' :: hs) -> nlen (g' :: hs) * 32 < W64 -> Chain_Load g (concat (g' :: hs)) = Ret (g :: hs).
Proof.
  intros H W. unfold Chain_Load.
  assert (Z : DF_GetSize 32 (DF_Load (concat (g' :: hs))) = nlen (g' :: hs)).
  { unfold DF_GetSize, AOF_GetSize. cbn [DF_Load AOF_Load m_pFile m_bufferIndex m_buffer]. rewrite (concat_len 32 eq_refl) by assumption.
    replace (nlen (@nil N)) with 0 by reflexivity. symmetry. apply (N.div_unique _ _ _ 0); lia. }
  rewrite Z. replace (nlen (g' :: hs) =? 0) with false by (unfold nlen; cbn [length]; lia). cbn [obind]. rewrite Z.
  rewrite read_all; [reflexivity|assumption|assumption|]. unfold nlen. cbn [length]. lia.
Qed.

Section P.
Context {DB Hdr : Type}.
Variable GetBlockHeader : DB -> bytes -> option Hdr.
Notation session := (@session DB).
Notation storage := (@storage DB).
Implicit Types (ss : session) (st : storage).

Lemma after_chains ss : reached ss -> exists st, crash ss st /\ is_new ss st (File CandidateChain) /\ is_new ss st (File ConfirmedChain) /\
  forall p, p <> File CandidateChain -> p <> File ConfirmedChain -> is_old ss st p.
Proof.
  intros R. apply reached_ok in R.
  set (a := own ss (File CandidateChain) ++ own ss (File ConfirmedChain)).
  exists (apply_effects a (on_disk ss)). split.
  - exists (in_turn ss), (length a). split; [apply in_turn_commit|]. f_equal. unfold in_turn.
    rewrite app_assoc. fold a. rewrite firstn_app, firstn_all, Nat.sub_diag. cbn [firstn]. rewrite app_nil_r. reflexivity.
  - unfold a. split; [|split].
    + apply new_after; [assumption|]. rewrite filter_app, !filter_own. cbn. apply app_nil_r.
    + apply new_after; [assumption|]. rewrite filter_app, !filter_own. reflexivity.
    + intros p N1 N2. apply old_after. rewrite filter_app, !filter_own.
      replace (piece_eqb p (File CandidateChain)) with false by (destruct p as [[]|[]|]; try reflexivity; congruence).
      replace (piece_eqb p (File ConfirmedChain)) with false by (destruct p as [[]|[]|]; try reflexivity; congruence). reflexivity.
Qed.

Lemma recs32 l : Forall (fun h => length h = 32%nat) l -> recs 32 l.
Proof. apply Forall_impl. intros h E. unfold nlen. rewrite E. reflexivity. Qed.
Lemma last_snoc {A} (x d : A) l : last (l ++ [x]) d = x.
Proof. induction l as [|y l IH]; [reflexivity|]. cbn [app last]. destruct (l ++ [x]) eqn:E; [destruct l; discriminate|exact IH]. Qed.

Lemma restart_mixed ss g cs hs h : reached ss ->
  chain_file (file ss CandidateChain) (g :: cs) -> chain_file (file ss ConfirmedChain) (g :: hs ++ [h]) ->
  exists st r, crash ss st /\ Restart GetBlockHeader g st = Ret r /\ r_confirmed r = g :: hs ++ [h] /\
    r_header r = GetBlockHeader (db_now ss) h /\
    (forall s, s <> CandidateChain -> s <> ConfirmedChain -> r_file r s = DF_Load (disk (m_pFile (file ss s)))) /\
    (forall l j, IsSet (r_leafset r l) j = bit_of (bdisk (leafset ss l)) j).
Proof.
  intros R (E1 & F1 & W1) (E2 & F2 & W2). destruct (after_chains ss R) as (st & C & A & B & D).
  cbn [is_new] in A, B. exists st. unfold Restart. rewrite A, B, E1, E2.
  rewrite !Chain_Load_ok by (apply recs32; assumption) || exact W1 || exact W2. cbn [obind].
  eexists. split; [exact C|]. split; [reflexivity|]. cbn [r_confirmed r_header r_file r_leafset]. split; [reflexivity|]. split; [|split].
  - change (g :: hs ++ [h]) with ((g :: hs) ++ [h]). rewrite last_snoc.
    rewrite (D Database) by discriminate. reflexivity.
  - intros s N1 N2. f_equal. apply (D (File s)); congruence.
  - intros l j. rewrite bit_of_disk by reflexivity. apply (D (Leaves l)); discriminate.
Qed.

Lemma recs_concat_firstn (hs bs : list bytes) : Forall (fun h => length h = 32%nat) hs -> 
  firstn (N.to_nat (N.of_nat (length hs) * 32)) (concat (hs ++ bs)) = concat hs.
Proof.
  intros F. rewrite concat_app, firstn_app.
  assert (L : length (concat hs) = N.to_nat (N.of_nat (length hs) * 32)).
  { pose proof (concat_len 32 eq_refl hs (recs32 _ F)) as E. unfold nlen in E. lia. }
  rewrite <- L, firstn_all, Nat.sub_diag. cbn [firstn]. apply app_nil_r.
Qed.
Lemma reorg_short ss g common old_branch new_branch cs : reached ss -> new_branch <> [] ->
  disk (m_pFile (file ss ConfirmedChain)) = concat (g :: common ++ old_branch) ->
  m_bufferIndex (m_pFile (file ss ConfirmedChain)) = N.of_nat (length (g :: common)) * 32 ->
  m_buffer (m_pFile (file ss ConfirmedChain)) = concat new_branch -> 
  Forall (fun h => length h = 32%nat) (g :: common ++ old_branch) -> Forall (fun h => length h = 32%nat) new_branch ->
  N.of_nat (length (g :: common)) * 32 < W64 ->
  chain_file (file ss CandidateChain) (g :: cs) ->
  exists st r, crash ss st /\ Restart GetBlockHeader g st = Ret r /\ r_confirmed r = g :: common.
Proof.
  intros R NE D BI BF F Fn W (E1 & F1 & W1). pose proof (reached_ok _ R) as [K _].
  destruct new_branch as [|h nb]; [contradiction|]. inversion Fn as [|? ? Lh Fn']; subst.
  assert (BN : m_buffer (m_pFile (file ss ConfirmedChain)) <> []).
  { rewrite BF. destruct h; [discriminate|discriminate]. }
  (* stop right after the truncation of the confirmed chain *)
  set (a := own ss (File CandidateChain) ++ [Truncate ConfirmedChain (m_bufferIndex (m_pFile (file ss ConfirmedChain)))]).
  assert (Ef : file_effects ss ConfirmedChain = Truncate ConfirmedChain (m_bufferIndex (m_pFile (file ss ConfirmedChain))) :: map (Put ConfirmedChain) (m_buffer (m_pFile (file ss ConfirmedChain)))).
  { destruct (K ConfirmedChain) as (A & B & C). unfold file_effects. destruct (m_dirty _); [|destruct (C eq_refl); contradiction].
    unfold flush_effects. destruct (_ && _) eqn:E; [|replace (_ <? _) with false by lia; reflexivity].
    destruct (m_buffer (m_pFile (file ss ConfirmedChain))); [contradiction|]. unfold nlen in E; cbn in E; lia. }
  exists (apply_effects a (on_disk ss)).
  assert (C : crash ss (apply_effects a (on_disk ss))).
  { exists (in_turn ss), (length a). split; [apply in_turn_commit|]. f_equal. unfold in_turn. cbn [own]. rewrite Ef. unfold a. cbn [own].
    rewrite app_length. cbn [length]. rewrite firstn_app_2. cbn [firstn app]. reflexivity. }
  assert (G1 : data_on_disk (apply_effects a (on_disk ss)) CandidateChain = concat (g :: cs)).
  { rewrite <- E1. apply (new_after ss a (File CandidateChain) (reached_ok _ R)). unfold a. rewrite filter_app, filter_own. cbn. apply app_nil_r. }
  assert (G2 : data_on_disk (apply_effects a (on_disk ss)) ConfirmedChain = concat (g :: common)).
  { pose proof (agree_run (File ConfirmedChain) a (on_disk ss) (on_disk ss) (agree_refl _ _)) as G. cbn [agree] in G. rewrite G.
    unfold a. rewrite filter_app, filter_own. cbn [piece_eqb dstore_eqb app filter on]. cbn [apply_effects fold_left apply_effect data_on_disk dstore_eqb on_disk].
    rewrite D, BI. unfold truncate. change (g :: common ++ old_branch) with ((g :: common) ++ old_branch) in *.
    replace (_ <=? _) with true.
    - apply recs_concat_firstn. apply Forall_app in F. tauto.
    - symmetry. apply N.leb_le. rewrite (concat_len 32 eq_refl) by (apply recs32; exact F). rewrite nlen_app. unfold nlen. lia. }
  unfold Restart. rewrite G1, G2. rewrite !Chain_Load_ok.
  - cbn [obind]. eexists. split; [exact C|]. split; [reflexivity|]. reflexivity.
  - apply recs32; exact F1.
  - exact W1.
  - apply recs32. change (g :: common ++ old_branch) with ((g :: common) ++ old_branch) in F. apply Forall_app in F. tauto.
  - exact W.
Qed.

Lemma quiet ss : reached ss -> (forall s, m_dirty (file ss s) = false) -> (forall l, m_modifiedBytes (leafset ss l) = []) -> atomic ss.
Proof.
  intros R A B st C. pose proof (reached_ok _ R) as [K _].
  assert (F : forall s, data_on_disk st s = disk (m_pFile (file ss s)) /\ data_on_disk st s = seen (file ss s)).
  { intros s. rewrite (seen_clean _ (K s) (A s)). split; (destruct (crash_own ss st (File s) C) as (m & E); cbn [agree own] in E;
      unfold file_effects in E; rewrite (A s), firstn_nil in E; exact E). }
  assert (L : forall l j, bit_of (leaves_on_disk st l) j = bit_of (bdisk (leafset ss l)) j /\ bit_of (leaves_on_disk st l) j = IsSet (leafset ss l) j).
  { intros l j. rewrite (bit_of_disk _ _ (B l)). split; (destruct (crash_own ss st (Leaves l) C) as (m & E); cbn [agree own] in E;
      unfold leaf_effects in E; rewrite (B l) in E; cbn [map] in E; rewrite firstn_nil in E; cbn in E; rewrite E; reflexivity). }
  destruct (crash_db ss st C) as [D|D]; [left|right]; intros [s|l|]; cbn [is_old is_new]; try apply F; try (intros j; apply L); exact D.
Qed.
End P.
