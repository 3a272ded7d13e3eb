(** Proofs for C16. *)
From Verif Require Import Base Bytes FileModel FileSpec FileProofs ChainModel ChainSpec.
Local Open Scope N_scope.

Notation finv := (Inv 32).
Notation spec_step := ChainSpec.spec_step.
Notation spec_run := ChainSpec.spec_run.
Lemma p32 : 0 < 32. Proof. lia. Qed.

(** ** Data file operations, at record level *)
Section DF.
Variables (d : dfile) (cm cr : list bytes).
Hypothesis HI : finv d (mkF cm cr).
Hypothesis HS : nlen cr * 32 < W64.
Lemma df_add r : nlen r = 32 -> (nlen cr + 1) * 32 < W64 -> finv (DF_AddData d r) (mkF cm (cr ++ [r])).
Proof.
  intros Hr Hs. destruct (step_ok 32 p32 d _ (SAdd r) _ _ HI Hr (st_add _ r)) as (d' & E & I); cbn [current committed] in *.
  - rewrite nlen_app. unfold nlen at 2. cbn [length]. lia.
  - exact HS.
  - cbn in E. inversion E; subst. exact I.
Qed.
Lemma df_rewind n : n <= nlen cr -> exists d', DF_Rewind 32 d n = (true, d') /\ finv d' (mkF cm (firstn (N.to_nat n) cr)).
Proof.
  intros Hn. destruct (step_ok 32 p32 d _ (SRewind n) _ _ HI ltac:(cbn; lia) (st_rewind (mkF cm cr) n Hn)) as (d' & E & I); cbn [current committed] in *.
  - rewrite nlen_firstn by exact Hn. lia.
  - exact HS.
  - cbn in E. destruct (DF_Rewind 32 d n) as [[] dd]; inversion E; subst. exists d'. auto.
Qed.
Lemma df_commit : exists d', DF_Commit d = Ret d' /\ finv d' (mkF cr cr).
Proof.
  destruct (step_ok 32 p32 d _ SCommit _ _ HI I (st_commit _)) as (d' & E & I'); cbn [current committed] in *; auto.
  cbn in E. destruct (DF_Commit d); inversion E; subst. eauto.
Qed.
Lemma df_rollback : nlen cm * 32 < W64 -> finv (DF_Rollback d) (mkF cm cm).
Proof.
  intros H. destruct (step_ok 32 p32 d _ SRollback _ _ HI I (st_rollback _)) as (d' & E & I'); cbn [current committed] in *; auto.
  cbn in E. inversion E; subst. exact I'.
Qed.
Lemma df_get i r : nth_error cr (N.to_nat i) = Some r -> DF_GetDataAt 32 d i = Ret r.
Proof.
  intros H. assert (i < nlen cr) by (assert (N.to_nat i < length cr)%nat by (apply nth_error_Some; congruence); unfold nlen; lia).
  destruct (step_ok 32 p32 d _ (SGet i) _ _ HI ltac:(cbn; lia) (st_get (mkF cm cr) i r H)) as (d' & E & I'); cbn [current committed] in *; auto.
  cbn in E. destruct (DF_GetDataAt 32 d i); inversion E; subst; reflexivity.
Qed.
Lemma df_size : DF_GetSize 32 d = nlen cr.
Proof.
  destruct (step_ok 32 p32 d _ SSize _ _ HI I (st_size _)) as (d' & E & I'); cbn [current committed] in *; auto.
  cbn in E. unfold nlen. congruence.
Qed.
End DF.

Lemma df_mark d s : finv d s -> finv (mkDfile (m_pFile d) true) s.
Proof. intros [a b c e f g]. constructor; auto. discriminate. Qed.
Lemma df_clean d cm cr : finv d (mkF cm cr) -> m_dirty d = false -> cr = cm.
Proof.
  intros [a b c e (k & buf & Hk & Hb & HB & Hc) g] Hd. cbn [committed current] in *.
  destruct (g Hd) as [g1 g2]. rewrite Hb, e in g1. apply (mulk 32 p32) in g1. subst k.
  rewrite HB in g2. rewrite firstn_all2 in Hc by (unfold nlen; lia).
  subst cr. apply Forall_app in b. destruct b as [_ b].
  rewrite (concat_nil_recs 32 p32 buf b), app_nil_r; auto. rewrite g2. reflexivity.
Qed.

(** ** Lists of indices *)
Definition idxs (l : list bytes) : list BlockIndex := combine l (map N.of_nat (seq 0 (length l))).
Lemma idxs_len l : nlen (idxs l) = size l.
Proof. unfold idxs, nlen, size, BlockIndex. rewrite combine_length, map_length, seq_length, Nat.min_id. reflexivity. Qed.
Lemma idxs_snoc l x : idxs (l ++ [x]) = idxs l ++ [(x, size l)].
Proof.
  unfold idxs. rewrite app_length, seq_app, map_app. cbn [length seq map Nat.add].
  assert (G : forall (a : list bytes) (b : list N) c e, length a = length b -> combine (a ++ c) (b ++ e) = combine a b ++ combine c e).
  { induction a as [|y a IH]; intros [|z b] c e H; try discriminate; [reflexivity|]. cbn. f_equal. apply IH. inversion H; auto. }
  rewrite G by (rewrite map_length, seq_length; reflexivity). reflexivity.
Qed.
Lemma idxs_nth l h : nth_error (idxs l) h = option_map (fun x => (x, N.of_nat h)) (nth_error l h).
Proof.
  revert h. induction l as [|x l IH] using rev_ind; intros h.
  { destruct h; reflexivity. }
  rewrite idxs_snoc. destruct (Nat.lt_ge_cases h (length l)) as [G|G].
  - rewrite !nth_error_app1; [apply IH| |]; auto. pose proof (idxs_len l) as E. unfold nlen, size in E. lia.
  - rewrite !nth_error_app2; auto; [|pose proof (idxs_len l) as E; unfold nlen, size in E; lia].
    pose proof (idxs_len l) as E. unfold nlen, size in *. replace (length (idxs l)) with (length l) by lia.
    destruct (h - length l)%nat as [|k] eqn:Ek; cbn; [|destruct k; reflexivity].
    do 2 f_equal. lia.
Qed.
Lemma idxs_firstn l n : idxs (firstn n l) = firstn n (idxs l).
Proof.
  revert n. induction l as [|x l IH] using rev_ind; intros n.
  { rewrite !firstn_nil. reflexivity. }
  rewrite idxs_snoc. pose proof (idxs_len l) as E. unfold nlen, size in E.
  destruct (Nat.le_gt_cases n (length l)) as [G|G].
  - rewrite !firstn_app. replace (n - length l)%nat with 0%nat by lia. replace (n - length (idxs l))%nat with 0%nat by lia.
    rewrite !firstn_O, !app_nil_r. apply IH.
  - rewrite !firstn_all2; [apply idxs_snoc| |]; rewrite app_length; cbn; lia.
Qed.

Lemma read_ok d cm cr k : finv d (mkF cm cr) -> nlen cr * 32 < W64 -> (k <= length cr)%nat ->
  read_indices d (idxs (firstn k cr)) = Ret (idxs cr).
Proof.
  intros HI HS Hk. unfold read_indices. rewrite (df_size d cm cr HI HS).
  assert (G : forall n s j, (j <= length cr)%nat -> fold_left (fun acc (i : nat) =>
      let* l := acc in
      if nlen l <? nlen cr then
        let* hash := DF_GetDataAt 32 d (nlen l) in Ret (l ++ [GetOrCreateIndex hash (nlen l)])
      else Ret l) (seq s n) (Ret (idxs (firstn j cr))) = Ret (idxs (firstn (j + n) cr))).
  { induction n as [|n IH]; intros s j Hj; cbn [seq fold_left]; [rewrite Nat.add_0_r; reflexivity|].
    cbn [obind]. rewrite idxs_len. unfold size. rewrite firstn_length, Nat.min_l by lia.
    destruct (N.ltb_spec (N.of_nat j) (nlen cr)) as [L|L].
    - destruct (nth_error cr j) as [x|] eqn:Ex.
      + rewrite (df_get d cm cr HI HS (N.of_nat j) x) by (rewrite Nnat.Nat2N.id; exact Ex). cbn [obind].
        replace (idxs (firstn j cr) ++ [GetOrCreateIndex x (N.of_nat j)]) with (idxs (firstn (S j) cr)).
        * rewrite IH; [do 3 f_equal; lia|]. assert (j < length cr)%nat by (apply nth_error_Some; congruence). lia.
        * replace (firstn (S j) cr) with (firstn j cr ++ [x]).
          -- rewrite idxs_snoc. unfold size, GetOrCreateIndex. rewrite firstn_length, Nat.min_l by lia. reflexivity.
          -- clear -Ex. revert cr Ex. induction j as [|j IH]; intros [|y cr] Ex; try discriminate; cbn in *; [congruence|]. f_equal. apply IH. exact Ex.
      + apply nth_error_None in Ex. unfold nlen in L. lia.
    - unfold nlen in L. assert (j = length cr) by lia. subst j. rewrite IH by lia.
      rewrite !firstn_all2 by lia. reflexivity. }
  rewrite G by exact Hk. unfold nlen. rewrite Nnat.Nat2N.id. rewrite firstn_all2 by lia. reflexivity.
Qed.

Lemma nth_error_firstn {A} (l : list A) n i : (i < n)%nat -> nth_error (firstn n l) i = nth_error l i.
Proof.
  revert l i. induction n as [|n IH]; intros [|x l] [|i] H; try reflexivity; try lia. cbn. apply IH. lia.
Qed.

Lemma nth_last (l : list bytes) : l <> [] -> nth_error l (length l - 1) = Some (last l []).
Proof.
  induction l as [|x l IH] using rev_ind; [congruence|]. intros _. rewrite last_last, app_length. cbn.
  rewrite nth_error_app2 by lia. replace (length l + 1 - 1 - length l)%nat with 0%nat by lia. reflexivity.
Qed.
Lemma common_below_skip l1 l2 h m : (h <= m)%nat -> (forall i, (h < i <= m)%nat -> nth_error l1 i = None \/ nth_error l2 i = None) ->
  common_below l1 l2 m = common_below l1 l2 h.
Proof.
  intros H G. induction m as [|m IH]; [replace h with 0%nat by lia; reflexivity|].
  destruct (Nat.eq_dec h (S m)) as [->|N]; [reflexivity|].
  cbn [common_below]. destruct (G (S m) ltac:(lia)) as [E|E]; rewrite E.
  - apply IH; [lia|]. intros; apply G; lia.
  - destruct (nth_error l1 (S m)); (apply IH; [lia|]; intros; apply G; lia).
Qed.
Lemma common_below_spec l1 l2 m c : common_below l1 l2 m = Some c ->
  (c <= m)%nat /\ (exists x, nth_error l1 c = Some x /\ nth_error l2 c = Some x) /\
  (forall i x, (c < i <= m)%nat -> nth_error l1 i = Some x -> nth_error l2 i <> Some x).
Proof.
  revert c. induction m as [|m IH]; intros c H; cbn [common_below] in H.
  - destruct (nth_error l1 0) as [b|] eqn:E1; [destruct (nth_error l2 0) as [b0|] eqn:E2; [destruct (bytes_eqb b b0) eqn:Eb|]|]; try discriminate.
    inversion H; subst. apply bytes_eqb_spec in Eb. subst. split; [lia|]. split; [eauto|]. intros; lia.
  - assert (G : forall o, o = common_below l1 l2 m -> o = Some c -> (forall x, nth_error l1 (S m) = Some x -> nth_error l2 (S m) <> Some x) ->
      (c <= S m)%nat /\ (exists x, nth_error l1 c = Some x /\ nth_error l2 c = Some x) /\
      (forall i x, (c < i <= S m)%nat -> nth_error l1 i = Some x -> nth_error l2 i <> Some x)).
    { intros o -> E D. destruct (IH _ E) as (A & B & C). split; [lia|]. split; [exact B|].
      intros i x Hi. destruct (Nat.eq_dec i (S m)) as [->|]; [apply D|apply C; lia]. }
    destruct (nth_error l1 (S m)) as [b|] eqn:E1; [destruct (nth_error l2 (S m)) as [b0|] eqn:E2; [destruct (bytes_eqb b b0) eqn:Eb|]|].
    + inversion H; subst. apply bytes_eqb_spec in Eb. subst. split; [lia|]. split; [eauto|]. intros; lia.
    + eapply G; eauto. intros x Ex Ey. assert (b = b0) by congruence. subst. rewrite bytes_eqb_refl in Eb. discriminate.
    + eapply G; eauto. intros; congruence.
    + eapply G; eauto. intros; congruence.
Qed.
Lemma common_spec l1 l2 c : common l1 l2 = Some c ->
  (exists x, nth_error l1 c = Some x /\ nth_error l2 c = Some x) /\
  (forall i x, (c < i)%nat -> nth_error l1 i = Some x -> nth_error l2 i <> Some x).
Proof.
  intros H. apply common_below_spec in H. destruct H as (A & B & C). split; [exact B|].
  intros i x Hi Ex. apply C; [|exact Ex]. split; [lia|]. assert (i < length l1)%nat by (apply nth_error_Some; congruence). lia.
Qed.
Lemma firstn_size n l : size (firstn n l) = N.min (N.of_nat n) (size l).
Proof. unfold size. rewrite firstn_length. lia. Qed.
Lemma put_put s t a b : forall u, put (put s t a) t b u = put s t b u.
Proof. intros u. destruct t, u; reflexivity. Qed.
Lemma put_same s t a : cur (put s t a t) = a.
Proof. destruct t; reflexivity. Qed.
Lemma put_other s t u a : t <> u -> put s t a u = s u.
Proof. destruct t, u; congruence || reflexivity. Qed.

(** ** Invariant of one chain *)
Section G.
Variable genesis : bytes.
Hypothesis Hgen : length genesis = 32%nat.
Definition starts (l : list bytes) : Prop := exists t, l = genesis :: t.
Record CI (K : N) (c : chain) (v : version) : Prop := {
  ciF : finv (m_dataFile c) (mkF (com v) (cur v));
  ciI : m_indices c = idxs (cur v);
  ciH : m_height c = size (cur v) - 1;
  ciC : starts (cur v);
  ciM : starts (com v);
  ciD : c_dirty c = false -> cur v = com v;
  ciS : size (cur v) <= K /\ size (com v) <= K
}.
Definition SI (K : N) (s : chainstore) (v : store) : Prop :=
  CI K (m_pConfirmedChain s) (v CONFIRMED) /\ CI K (m_pCandidateChain s) (v CANDIDATE).
Lemma SI_get K s v t : SI K s v -> CI K (GetChain s t) (v t).
Proof. intros [A B]. destruct t; assumption. Qed.
Lemma SI_put K s v t c l : SI K s v -> CI K c (mkV l (com (v t))) -> SI K (SetChain s t c) (put v t l).
Proof. intros [A B] C. destruct t; split; cbn; assumption. Qed.
Lemma CI_mono K K' c v : K <= K' -> CI K c v -> CI K' c v.
Proof. intros H [a b e d f g [h i]]. constructor; auto. split; lia. Qed.
Lemma SI_mono K K' s v : K <= K' -> SI K s v -> SI K' s v.
Proof. intros H [A B]. split; eapply CI_mono; eauto. Qed.
Lemma size_pos l : starts l -> 0 < size l.
Proof. intros [t ->]. unfold size. cbn [length]. lia. Qed.

Section K.
Variable K : N.
Hypothesis HK : (K + 2) * 32 < W64.

Lemma add_ok c v hash h : CI K c v -> length hash = 32%nat -> size (cur v) + 1 <= K -> h < W64 ->
  Chain_AddBlock c hash h = (if h =? size (cur v) then Ret (mkChain (m_indices c ++ [(hash, h)]) h true (DF_AddData (m_dataFile c) hash)) else Throw)
  /\ (h = size (cur v) -> CI K (mkChain (m_indices c ++ [(hash, h)]) h true (DF_AddData (m_dataFile c) hash)) (mkV (cur v ++ [hash]) (com v))).
Proof.
  intros C Hl Hs Hh. pose proof (size_pos _ (ciC _ _ _ C)) as P. destruct (ciS _ _ _ C) as [S1 S2].
  assert (A : add64 (m_height c) 1 = size (cur v)) by (rewrite (ciH _ _ _ C), add64_small; lia).
  split.
  - unfold Chain_AddBlock. rewrite A. destruct (N.eqb_spec h (size (cur v))); cbn [negb]; [|reflexivity]. subst h. reflexivity.
  - intros ->. constructor; cbn [m_dataFile m_indices m_height c_dirty cur com].
    + apply df_add; [apply C| | |]; unfold nlen; try (unfold size in *; lia).
    + rewrite idxs_snoc, (ciI _ _ _ C). reflexivity.
    + unfold size. rewrite app_length. cbn. lia.
    + destruct (ciC _ _ _ C) as [t ->]. exists (t ++ [hash]). reflexivity.
    + apply C.
    + discriminate.
    + split; [|lia]. unfold size in *. rewrite app_length. cbn. lia.
Qed.
Lemma firstn_starts n l : starts l -> starts (firstn (S n) l).
Proof. intros [t ->]. exists (firstn n t). reflexivity. Qed.
Lemma rewind_ok c v h : CI K c v -> h < W64 ->
  if h <? size (cur v) then exists c', Chain_Rewind c h = Ret c' /\ CI K c' (mkV (firstn (S (N.to_nat h)) (cur v)) (com v))
  else Chain_Rewind c h = Throw.
Proof.
  intros C Hh. pose proof (size_pos _ (ciC _ _ _ C)) as P. destruct (ciS _ _ _ C) as [S1 S2].
  unfold Chain_Rewind. rewrite (ciH _ _ _ C).
  destruct (N.ltb_spec h (size (cur v))) as [L|L].
  - destruct (N.ltb_spec (size (cur v) - 1) h) as [L1|L1]; [lia|].
    destruct (N.ltb_spec h (size (cur v) - 1)) as [L2|L2].
    + rewrite add64_small by lia.
      destruct (df_rewind (m_dataFile c) (com v) (cur v) (ciF _ _ _ C) ltac:(unfold nlen, size in *; lia) (h + 1) ltac:(unfold nlen, size in *; lia)) as (d' & E & I).
      rewrite E. replace (N.to_nat (h + 1)) with (S (N.to_nat h)) in * by lia.
      eexists. split; [reflexivity|]. constructor; cbn [m_dataFile m_indices m_height c_dirty cur com].
      * exact I.
      * rewrite (ciI _ _ _ C). symmetry. apply idxs_firstn.
      * rewrite firstn_size. lia.
      * apply firstn_starts, C.
      * apply C.
      * discriminate.
      * rewrite firstn_size. split; lia.
    + exists c. split; [reflexivity|]. rewrite firstn_all2 by (unfold size in *; lia).
      destruct C. constructor; auto.
  - destruct (N.ltb_spec (size (cur v) - 1) h) as [L1|L1]; [reflexivity|lia].
Qed.
Lemma commit_ok c v : CI K c v -> exists c', Chain_Commit c = Ret c' /\ CI K c' (mkV (cur v) (cur v)).
Proof.
  intros C. destruct (ciS _ _ _ C) as [S1 S2]. unfold Chain_Commit.
  destruct (c_dirty c) eqn:D.
  - destruct (df_commit (m_dataFile c) (com v) (cur v) (ciF _ _ _ C) ltac:(unfold nlen, size in *; lia)) as (d' & E & I).
    rewrite E. cbn [obind]. eexists. split; [reflexivity|].
    destruct C. constructor; cbn; auto.
  - eexists. split; [reflexivity|]. pose proof (ciD _ _ _ C D) as E. destruct C. constructor; cbn; auto. rewrite E in *. assumption.
Qed.
Lemma rollback_ok c v : CI K c v -> exists c', Chain_Rollback c = Ret c' /\ CI K c' (mkV (com v) (com v)) /\ c_dirty c' = false.
Proof.
  intros C. destruct (ciS _ _ _ C) as [S1 S2]. unfold Chain_Rollback.
  destruct (c_dirty c) eqn:D.
  - assert (I : finv (DF_Rollback (m_dataFile c)) (mkF (com v) (com v))).
    { apply (df_rollback _ _ _ (ciF _ _ _ C)); unfold nlen, size in *; lia. }
    pose proof (read_ok _ _ _ 0 I ltac:(unfold nlen, size in *; lia) ltac:(lia)) as R.
    change (idxs (firstn 0 (com v))) with (@nil BlockIndex) in R. rewrite R. cbn [obind].
    eexists. split; [reflexivity|]. split; [|reflexivity]. pose proof (size_pos _ (ciM _ _ _ C)).
    destruct C. constructor; cbn; auto.
    rewrite idxs_len, sub64_small by lia. reflexivity.
  - eexists. split; [reflexivity|]. split; [|reflexivity]. pose proof (ciD _ _ _ C D) as E. destruct C. constructor; cbn; auto; rewrite E in *; assumption.
Qed.
Lemma initw_ok c v : CI K c v -> cur v = com v -> CI K (Chain_OnInitWrite c) v.
Proof. intros [a b e d f g h] E. constructor; cbn; auto. apply df_mark, a. Qed.
Lemma endw_ok c v : CI K c v -> cur v = com v -> CI K (Chain_OnEndWrite c) v.
Proof.
  intros [a b e d f g h] E. constructor; cbn; auto. destruct (m_dirty (m_dataFile c)) eqn:D; [|assumption].
  destruct v as [u w]. cbn in *. subst u. eapply df_rollback; [exact a| |]; unfold nlen, size in *; lia.
Qed.
Lemma load_ok l : Forall (fun r => nlen r = 32) l -> starts l -> size l <= K ->
  exists c, Chain_Load (concat l) genesis = Ret c /\ CI K c (mkV l l).
Proof.
  intros F St Sz. unfold Chain_Load. pose proof (inv_load 32 p32 l F) as I. pose proof (size_pos _ St) as P.
  assert (Sz2 : nlen l * 32 < W64) by (unfold nlen, size in *; lia).
  rewrite (df_size _ _ _ I Sz2). destruct (N.eqb_spec (nlen l) 0) as [G|G]; [unfold nlen, size in *; lia|].
  cbn [obind]. destruct St as [t ->]. pose proof (read_ok _ _ _ 1 I Sz2 ltac:(cbn; lia)) as R.
  change (idxs (firstn 1 (genesis :: t))) with [(genesis, 0)] in R. rewrite R. cbn [obind].
  eexists. split; [reflexivity|]. constructor; cbn [m_dataFile m_indices m_height c_dirty cur com]; auto.
  - rewrite idxs_len, sub64_small by lia. reflexivity.
  - eexists; reflexivity.
  - eexists; reflexivity.
Qed.
Lemma load_empty : 1 <= K -> exists c, Chain_Load [] genesis = Ret c /\ CI K c (mkV [genesis] [genesis]).
Proof.
  intros HK1. pose proof (inv_load 32 p32 [] (Forall_nil _)) as I. cbn [concat] in I.
  assert (I1 : finv (DF_AddData (DF_Load []) genesis) (mkF [] [genesis])).
  { apply (df_add _ [] [] I); unfold nlen; cbn [length]; lia. }
  destruct (df_commit _ _ _ I1 ltac:(unfold nlen; cbn [length]; lia)) as (d' & E & I2).
  unfold Chain_Load. cbv zeta. change (DF_GetSize 32 (DF_Load []) =? 0) with true. cbv iota.
  rewrite E. cbn [obind].
  pose proof (read_ok _ _ _ 1 I2 ltac:(unfold nlen; cbn [length]; lia) ltac:(cbn; lia)) as R.
  change (idxs (firstn 1 [genesis])) with [(genesis, 0)] in R. rewrite R. cbn [obind].
  eexists. split; [reflexivity|]. constructor; cbn [m_dataFile m_indices m_height c_dirty cur com]; auto;
  try (eexists; reflexivity).
Qed.

(** ** Queries *)
Lemma byheight_ok c v h : CI K c v -> h < W64 -> GetByHeight c h = option_map (fun x => (x, h)) (block_at (cur v) h).
Proof.
  intros C Hh. pose proof (size_pos _ (ciC _ _ _ C)) as P. unfold GetByHeight, block_at.
  rewrite (ciH _ _ _ C), (ciI _ _ _ C), idxs_len, idxs_nth, Nnat.N2Nat.id.
  destruct (N.leb_spec h (size (cur v) - 1)); destruct (N.ltb_spec h (size (cur v))); cbn [andb]; try reflexivity; try lia.
  replace (nth_error (cur v) (N.to_nat h)) with (@None bytes); [reflexivity|]. symmetry. apply nth_error_None. unfold size in *. lia.
Qed.
Lemma gethash_ok c v h : CI K c v -> Chain_GetHash c h = match block_at (cur v) h with Some x => Ret x | None => Fault end.
Proof.
  intros C. unfold Chain_GetHash, block_at. rewrite (ciI _ _ _ C), idxs_nth.
  destruct (nth_error (cur v) (N.to_nat h)); reflexivity.
Qed.
Lemma tip_ok c v : CI K c v -> GetTip c = Ret (last (cur v) [], size (cur v) - 1).
Proof.
  intros C. unfold GetTip. rewrite (ciI _ _ _ C), (ciH _ _ _ C), idxs_nth.
  replace (N.to_nat (size (cur v) - 1)) with (length (cur v) - 1)%nat by (unfold size; lia).
  rewrite nth_last by (destruct (ciC _ _ _ C) as [t ->]; discriminate). cbn. do 2 f_equal. unfold size. lia.
Qed.
Lemma onchain_ok c v h hash : CI K c v -> IsOnChain c h hash = Ret (match block_at (cur v) h with Some x => bytes_eqb x hash | None => false end).
Proof.
  intros C. pose proof (size_pos _ (ciC _ _ _ C)) as P. unfold IsOnChain. rewrite (gethash_ok _ _ _ C), (ciH _ _ _ C).
  destruct (N.leb_spec h (size (cur v) - 1)).
  - unfold block_at. destruct (nth_error (cur v) (N.to_nat h)) eqn:E; [reflexivity|]. apply nth_error_None in E. unfold size in *. lia.
  - unfold block_at. replace (nth_error (cur v) (N.to_nat h)) with (@None bytes); [reflexivity|]. symmetry. apply nth_error_None. unfold size in *. lia.
Qed.

Lemma findcommon_loop c1 c2 v1 v2 h : CI K c1 v1 -> CI K c2 v2 -> (h < length (cur v1))%nat -> (h < length (cur v2))%nat ->
  FindCommon c1 c2 h = match common_below (cur v1) (cur v2) h with Some c => Ret (nth c (cur v1) [], N.of_nat c) | None => Fault end.
Proof.
  intros C1 C2. destruct (ciS _ _ _ C1) as [S1 _]. unfold size in S1.
  induction h as [|h IH]; intros L1 L2; cbn [FindCommon common_below];
  rewrite (byheight_ok _ _ _ C1), (byheight_ok _ _ _ C2) by lia; unfold block_at; rewrite Nnat.Nat2N.id.
  - destruct (nth_error (cur v1) 0) eqn:E1; [|apply nth_error_None in E1; lia].
    destruct (nth_error (cur v2) 0) eqn:E2; [|apply nth_error_None in E2; lia]. cbn [option_map fst].
    destruct (bytes_eqb _ _); [|reflexivity]. erewrite nth_error_nth by exact E1. reflexivity.
  - destruct (nth_error (cur v1) (S h)) eqn:E1; [|apply nth_error_None in E1; lia].
    destruct (nth_error (cur v2) (S h)) eqn:E2; [|apply nth_error_None in E2; lia]. cbn [option_map fst].
    destruct (bytes_eqb _ _); [|apply IH; lia]. erewrite nth_error_nth by exact E1. reflexivity.
Qed.
Lemma findcommon_ok s v a b : SI K s v ->
  FindCommonIndex s a b = match common (cur (v a)) (cur (v b)) with Some c => Ret (nth c (cur (v a)) [], N.of_nat c) | None => Fault end.
Proof.
  intros H. pose proof (SI_get _ _ _ a H) as C1. pose proof (SI_get _ _ _ b H) as C2.
  pose proof (size_pos _ (ciC _ _ _ C1)) as P1. pose proof (size_pos _ (ciC _ _ _ C2)) as P2.
  unfold FindCommonIndex. rewrite (ciH _ _ _ C1), (ciH _ _ _ C2). unfold size in *.
  rewrite (findcommon_loop _ _ (v a) (v b)); auto; try lia.
  unfold common. erewrite <- common_below_skip; [reflexivity|lia|].
  intros i Hi. rewrite !nth_error_None. lia.
Qed.
Lemma common_some l1 l2 : starts l1 -> starts l2 -> exists c, common l1 l2 = Some c.
Proof.
  intros [t1 ->] [t2 ->]. unfold common. generalize (max (length (genesis :: t1)) (length (genesis :: t2))).
  induction n as [|n [c IH]]; cbn [common_below nth_error]; [rewrite bytes_eqb_refl; eauto|].
  rewrite IH. destruct (nth_error t1 n); [destruct (nth_error t2 n); [destruct (bytes_eqb _ _)|]|]; eauto.
Qed.

(** ** Reorg *)
Lemma SI_ext s v v' : (forall t, v t = v' t) -> SI K s v -> SI K s v'.
Proof. intros E [A B]. rewrite !E in *. split; assumption. Qed.

Lemma reorg_fold a b L : forall n s v h0,
  SI K s v -> (a <> b -> cur (v a) = L) -> size (cur (v b)) = h0 -> h0 + N.of_nat n <= size L -> size L <= K ->
  (a = b -> n = 0%nat) ->
  exists s', fold_left (reorg_step a b) (map (fun i => h0 + N.of_nat i) (seq 0 n)) (Ret s) = Ret s' /\
    SI K s' (put v b (cur (v b) ++ firstn n (skipn (N.to_nat h0) L))).
Proof.
  induction n as [|n IH]; intros s v h0 H HL Hs Hn HLK Hab.
  - exists s. split; [reflexivity|]. cbn [firstn]. rewrite app_nil_r. eapply SI_ext; [|exact H].
    intros t. destruct b, t; cbn; try reflexivity; [destruct (v CONFIRMED)|destruct (v CANDIDATE)]; reflexivity.
  - cbn [seq map fold_left]. rewrite N.add_0_r. unfold reorg_step at 2. cbn [obind].
    assert (Nab : a <> b) by (intros E; specialize (Hab E); discriminate). specialize (HL Nab).
    rewrite (gethash_ok _ _ _ (SI_get _ _ _ a H)), HL. unfold block_at.
    destruct (nth_error L (N.to_nat h0)) as [x|] eqn:Ex; [|apply nth_error_None in Ex; unfold size in *; lia].
    cbn [obind].
    assert (Lx : length x = 32%nat).
    { pose proof (iU _ _ _ (ciF _ _ _ (SI_get _ _ _ a H))) as R. cbn [current] in R. rewrite HL in R.
      unfold recs in R. rewrite Forall_forall in R. apply nth_error_In in Ex. apply R in Ex. unfold nlen in Ex. lia. }
    destruct (add_ok (GetChain s b) (v b) x h0 (SI_get _ _ _ b H) Lx ltac:(lia) ltac:(unfold size in *; lia)) as [E C].
    rewrite E, Hs, N.eqb_refl. cbn [obind].
    specialize (C ltac:(congruence)).
    pose proof (SI_put _ _ _ b _ _ H C) as H1.
    specialize (IH _ _ (h0 + 1) H1). rewrite put_same in IH. rewrite (put_other v b a) in IH by congruence.
    destruct IH as (s' & Es & Hs'); auto.
    + unfold size in *. rewrite app_length. cbn. lia.
    + lia.
    + congruence.
    + exists s'. split.
      * rewrite <- Es. rewrite <- seq_shift, map_map. f_equal. apply map_ext. intros i. lia.
      * eapply SI_ext; [|exact Hs']. intros t. rewrite put_put.
        replace ((cur (v b) ++ [x]) ++ firstn n (skipn (N.to_nat (h0 + 1)) L)) with (cur (v b) ++ firstn (S n) (skipn (N.to_nat h0) L)); [reflexivity|].
        rewrite <- app_assoc. f_equal. apply nth_error_split in Ex. destruct Ex as (l1 & l2 & -> & El).
        rewrite skipn_app, El, Nat.sub_diag, skipn_all2 by lia. cbn [skipn app firstn].
        f_equal. rewrite skipn_app, El, skipn_all2 by lia. replace (N.to_nat (h0 + 1) - N.to_nat h0)%nat with 1%nat by lia. reflexivity.
Qed.

Lemma common_refl l : starts l -> common l l = Some (length l - 1)%nat.
Proof.
  intros St. destruct (common_some l l St St) as [c E]. rewrite E. destruct (common_spec _ _ _ E) as [(x & A & _) B].
  assert (c < length l)%nat by (apply nth_error_Some; congruence). f_equal.
  destruct (Nat.eq_dec c (length l - 1)) as [|N]; auto. exfalso.
  destruct (nth_error l (length l - 1)) as [y|] eqn:Ey; [|apply nth_error_None in Ey; lia].
  apply (B (length l - 1)%nat y ltac:(lia) Ey Ey).
Qed.

Definition sim (r : cres * chainstore) (q : cres * store) : Prop := fst r = fst q /\ SI K (snd r) (snd q).

Lemma reorg_ok s v a b h : SI K s v -> h < W64 ->
  sim (upd s (ReorgChain s a b h)) (spec_step v (CReorg a b h)).
Proof.
  intros H Hh. pose proof (SI_get _ _ _ a H) as Ca. pose proof (SI_get _ _ _ b H) as Cb.
  pose proof (size_pos _ (ciC _ _ _ Ca)) as Pa. pose proof (size_pos _ (ciC _ _ _ Cb)) as Pb.
  destruct (ciS _ _ _ Ca) as [Sa _]. destruct (ciS _ _ _ Cb) as [Sb _].
  unfold ReorgChain. cbn [ChainSpec.spec_step]. rewrite (ciH _ _ _ Ca).
  destruct (N.ltb_spec h (size (cur (v a)))) as [L|L];
    [|destruct (N.ltb_spec (size (cur (v a)) - 1) h); [|lia]; split; [reflexivity|exact H]].
  destruct (N.ltb_spec (size (cur (v a)) - 1) h); [lia|].
  rewrite (findcommon_ok _ _ _ _ H).
  destruct (common_some (cur (v a)) (cur (v b)) (ciC _ _ _ Ca) (ciC _ _ _ Cb)) as [c Ec]. rewrite Ec. cbn [obind snd].
  destruct (common_spec _ _ _ Ec) as [(x & X1 & X2) _].
  assert (c < length (cur (v a)))%nat by (apply nth_error_Some; congruence).
  assert (c < length (cur (v b)))%nat by (apply nth_error_Some; congruence).
  set (m := N.min (N.of_nat c) h).
  assert (Hm : m < size (cur (v b))) by (unfold size; lia).
  pose proof (rewind_ok (GetChain s b) (v b) m Cb ltac:(lia)) as R.
  destruct (N.ltb_spec m (size (cur (v b)))); [|lia]. destruct R as (d & E & Cd). rewrite E. cbn [obind].
  pose proof (SI_put _ _ _ b _ _ H Cd) as HP.
  assert (Szm : size (firstn (S (N.to_nat m)) (cur (v b))) = m + 1) by (rewrite firstn_size; lia).
  destruct (reorg_fold a b (cur (v a)) (N.to_nat (h - m)) _ _ (m + 1) HP) as (s' & E' & H').
  - intros Nab. rewrite put_other by congruence. reflexivity.
  - rewrite put_same. exact Szm.
  - lia.
  - exact Sa.
  - intros ->. rewrite common_refl in Ec by apply Ca. inversion Ec. unfold size in *. lia.
  - rewrite E'. cbn [upd]. split; [reflexivity|]. cbn [snd]. eapply SI_ext; [|exact H'].
    intros t. rewrite put_put, put_same.
    replace (firstn (S (Nat.min c (N.to_nat h))) (cur (v b)) ++ skipn (S c) (firstn (S (N.to_nat h)) (cur (v a))))
      with (firstn (S (N.to_nat m)) (cur (v b)) ++ firstn (N.to_nat (h - m)) (skipn (N.to_nat (m + 1)) (cur (v a)))); [reflexivity|].
    f_equal.
    + do 2 f_equal. lia.
    + destruct (N.le_gt_cases (N.of_nat c) h) as [Q|Q].
      * replace (N.to_nat (m + 1)) with (S c) by lia. rewrite skipn_firstn_comm. f_equal. lia.
      * replace (N.to_nat (h - m)) with 0%nat by lia. symmetry. apply skipn_all2. rewrite firstn_length. lia.
Qed.

Lemma step_sim s v o : SI K s v -> cop_ok o ->
  (match o with CAdd t _ _ => size (cur (v t)) + 1 <= K | CCopy _ t _ => size (cur (v t)) + 1 <= K | _ => True end) ->
  sim (chain_step genesis s o) (spec_step v o).
Proof.
  intros H Ho Hsz. destruct o; cbn [cop_ok chain_step] in *.
  - (* add *) destruct Ho as [Hl Hh]. pose proof (SI_get _ _ _ t H) as C.
    destruct (add_ok _ _ hash height C Hl Hsz Hh) as [E C']. cbn [ChainSpec.spec_step]. rewrite E.
    destruct (N.eqb_spec height (size (cur (v t)))) as [G|G]; cbn [obind upd]; (split; [reflexivity|]); cbn [snd]; [|exact H].
    apply SI_put; auto.
  - pose proof (rewind_ok _ _ lastHeight (SI_get _ _ _ t H) Ho) as R. cbn [ChainSpec.spec_step].
    destruct (lastHeight <? size (cur (v t))).
    + destruct R as (c' & E & C). rewrite E. split; [reflexivity|]. apply SI_put; auto.
    + rewrite R. split; [reflexivity|exact H].
  - apply reorg_ok; auto.
  - pose proof (SI_get _ _ _ source H) as Ca. pose proof (SI_get _ _ _ destination H) as Cb.
    pose proof (size_pos _ (ciC _ _ _ Ca)) as Pa. destruct (ciS _ _ _ Ca) as [Sa _].
    pose proof (reorg_ok s v source destination (size (cur (v source)) - 1) H ltac:(lia)) as R.
    unfold ReorgChain_tip. rewrite (ciH _ _ _ Ca). cbn [ChainSpec.spec_step] in *.
    destruct (N.ltb_spec (size (cur (v source)) - 1) (size (cur (v source)))); [|lia].
    destruct (common (cur (v source)) (cur (v destination))) as [c|] eqn:Ec; [|exact R].
    destruct (common_spec _ _ _ Ec) as [(x & X1 & X2) _].
    assert (c < length (cur (v source)))%nat by (apply nth_error_Some; congruence).
    replace (S (N.to_nat (size (cur (v source)) - 1))) with (length (cur (v source))) in R by (unfold size in *; lia).
    rewrite firstn_all in R. replace (Nat.min c (N.to_nat (size (cur (v source)) - 1))) with c in R by (unfold size in *; lia). exact R.
  - (* copy *) pose proof (SI_get _ _ _ source H) as Ca. pose proof (SI_get _ _ _ destination H) as Cb.
    pose proof (size_pos _ (ciC _ _ _ Ca)) as Pa. pose proof (size_pos _ (ciC _ _ _ Cb)) as Pb.
    destruct (ciS _ _ _ Ca) as [Sa _]. destruct (ciS _ _ _ Cb) as [Sb _].
    unfold Store_AddBlock. rewrite (tip_ok _ _ Cb). cbn [obind snd ChainSpec.spec_step]. rewrite add64_small by lia.
    replace (size (cur (v destination)) - 1 + 1) with (size (cur (v destination))) by lia.
    rewrite (gethash_ok _ _ _ Ca). rewrite (tip_ok _ _ Ca). cbn [obind snd].
    destruct (N.eqb_spec (size (cur (v destination))) height) as [G|G].
    + destruct (block_at (cur (v source)) height) as [x|] eqn:Ex.
      * assert (height < size (cur (v source))) by (unfold block_at in Ex; assert (N.to_nat height < length (cur (v source)))%nat by (apply nth_error_Some; congruence); unfold size; lia).
        destruct (N.leb_spec height (size (cur (v source)) - 1)); [|lia]. cbn [obind].
        assert (Lx : length x = 32%nat).
        { pose proof (iU _ _ _ (ciF _ _ _ Ca)) as R. cbn [current] in R.
          unfold recs in R. rewrite Forall_forall in R. apply nth_error_In in Ex. apply R in Ex. unfold nlen in Ex. lia. }
        destruct (add_ok _ _ x height Cb Lx Hsz Ho) as [E C']. rewrite E.
        rewrite <- G, N.eqb_refl. cbn [obind upd]. split; [reflexivity|]. cbn [snd]. rewrite <- G in C'. apply SI_put; auto.
      * unfold block_at in Ex. apply nth_error_None in Ex.
        destruct (N.leb_spec height (size (cur (v source)) - 1)); [unfold size in *; lia|]. split; [reflexivity|exact H].
    + destruct (block_at (cur (v source)) height); [|split; [reflexivity|exact H]].
      destruct (N.eqb_spec height (size (cur (v destination)))); [congruence|]. split; [reflexivity|exact H].
  - (* commit *) destruct H as [A B]. unfold Store_Commit.
    destruct (commit_ok _ _ B) as (b & Eb & Cb). destruct (commit_ok _ _ A) as (a & Ea & Ca).
    rewrite Eb, Ea. cbn. split; [reflexivity|split; assumption].
  - destruct H as [A B]. unfold Store_Rollback.
    destruct (rollback_ok _ _ B) as (b & Eb & Cb & _). destruct (rollback_ok _ _ A) as (a & Ea & Ca & _).
    rewrite Eb, Ea. cbn. split; [reflexivity|split; assumption].
  - destruct H as [A B]. unfold Store_NextWriter, Store_Rollback.
    destruct (rollback_ok _ _ B) as (b & Eb & Cb & _). destruct (rollback_ok _ _ A) as (a & Ea & Ca & _).
    rewrite Eb, Ea. cbn [obind upd]. split; [reflexivity|].
    split; cbn [snd ChainSpec.spec_step Store_OnInitWrite Store_OnEndWrite m_pConfirmedChain m_pCandidateChain];
      (apply initw_ok; [|reflexivity]; apply endw_ok; [assumption|reflexivity]).
  - (* restart *) destruct H as [A B]. unfold Store_Load, file_of.
    rewrite (iD _ _ _ (ciF _ _ _ A)), (iD _ _ _ (ciF _ _ _ B)). cbn [committed].
    destruct (load_ok (com (v CONFIRMED)) (iC _ _ _ (ciF _ _ _ A)) (ciM _ _ _ A) (proj2 (ciS _ _ _ A))) as (a & Ea & Ca).
    destruct (load_ok (com (v CANDIDATE)) (iC _ _ _ (ciF _ _ _ B)) (ciM _ _ _ B) (proj2 (ciS _ _ _ B))) as (b & Eb & Cb).
    rewrite Ea, Eb. cbn [obind upd]. split; [reflexivity|].
    split; cbn [snd ChainSpec.spec_step Store_OnInitWrite m_pConfirmedChain m_pCandidateChain]; (apply initw_ok; [assumption|reflexivity]).
  - cbn [ChainSpec.spec_step]. rewrite (byheight_ok _ _ _ (SI_get _ _ _ t H) Ho). split; [reflexivity|exact H].
  - cbn [ChainSpec.spec_step]. rewrite (gethash_ok _ _ _ (SI_get _ _ _ t H)). split; [|exact H]. cbn. destruct (block_at _ _); reflexivity.
  - cbn [ChainSpec.spec_step]. rewrite (tip_ok _ _ (SI_get _ _ _ t H)). split; [reflexivity|exact H].
  - cbn [ChainSpec.spec_step]. rewrite (onchain_ok _ _ _ _ (SI_get _ _ _ t H)). split; [reflexivity|exact H].
  - cbn [ChainSpec.spec_step]. rewrite (findcommon_ok _ _ _ _ H). split; [|exact H]. cbn. destruct (common _ _); reflexivity.
Qed.
End K.

(** The longest list grows by at most one block per call. *)
Definition bounded (K : N) (v : store) : Prop := forall t, size (cur (v t)) <= K /\ size (com (v t)) <= K.
Lemma SI_bounded K s v : SI K s v -> bounded K v.
Proof. intros [A B] []; [apply A|apply B]. Qed.

Lemma run_sim ops : forall K s v, (K + N.of_nat (length ops) + 2) * 32 < W64 -> SI K s v -> Forall cop_ok ops ->
  fst (chain_run genesis s ops) = fst (spec_run v ops) /\
  SI (K + N.of_nat (length ops)) (snd (chain_run genesis s ops)) (snd (spec_run v ops)).
Proof.
  induction ops as [|o ops IH]; intros K s v HK H Ho.
  { cbn. split; [reflexivity|]. eapply SI_mono; [|exact H]. lia. }
  inversion Ho; subst. cbn [chain_run ChainSpec.spec_run]. cbn [length] in HK.
  pose proof (SI_bounded _ _ _ H) as Bd.
  destruct (step_sim (K + 1) ltac:(lia) s v o) as [E G].
  - eapply SI_mono; [|exact H]. lia.
  - assumption.
  - destruct o; auto; match goal with |- size (cur (v ?t)) + 1 <= _ => destruct (Bd t); lia end.
  - destruct (chain_step genesis s o) as [r s1]. destruct (spec_step v o) as [r' v1]. cbn [fst snd] in *. subst r'.
    destruct (IH (K + 1) s1 v1 ltac:(lia) G ltac:(assumption)) as [E2 G2].
    destruct (chain_run genesis s1 ops) as [rs s2]. destruct (spec_run v1 ops) as [rs' v2]. cbn [fst snd] in *. subst rs'.
    split; [reflexivity|]. eapply SI_mono; [|exact G2]. cbn [length]. lia.
Qed.
End G.

(** ** Linked chains *)
Section Link.
Variable parent : bytes -> bytes.
Variable genesis : bytes.
Notation lk := (linked parent).
Lemma linked_nth l : lk l <-> forall i a b, nth_error l i = Some a -> nth_error l (S i) = Some b -> parent b = a.
Proof.
  induction l as [|x [|y l] IH]; split.
  - intros _ [|i] a b; discriminate.
  - constructor.
  - intros _ [|[|i]] a b; discriminate.
  - intros _. exact I.
  - intros [E H] [|i] a b; cbn [nth_error]; [intros [= <-] [= <-]; exact E|]. apply IH. exact H.
  - intros H. split; [apply (H 0%nat); reflexivity|]. apply IH. intros i a b. apply (H (S i)).
Qed.
Lemma linked_firstn l n : lk l -> lk (firstn n l).
Proof.
  rewrite !linked_nth. intros H i a b Ha Hb.
  assert (Lb : (S i < length (firstn n l))%nat) by (apply nth_error_Some; congruence).
  rewrite firstn_length in Lb. apply (H i).
  - rewrite <- Ha. symmetry. rewrite <- (firstn_skipn n l) at 2. rewrite nth_error_app1; [reflexivity|rewrite firstn_length; lia].
  - rewrite <- Hb. symmetry. rewrite <- (firstn_skipn n l) at 2. rewrite nth_error_app1; [reflexivity|rewrite firstn_length; lia].
Qed.
Lemma linked_snoc l x : lk l -> (l <> [] -> parent x = last l []) -> lk (l ++ [x]).
Proof.
  rewrite !linked_nth. intros H P i a b Ha Hb.
  destruct (Nat.lt_ge_cases (S i) (length l)) as [G|G].
  - rewrite nth_error_app1 in Ha by lia. rewrite nth_error_app1 in Hb by lia. eapply H; eauto.
  - rewrite nth_error_app2 in Hb by lia. destruct (S i - length l)%nat eqn:E; [|destruct n; discriminate]. inversion Hb; subst.
    rewrite nth_error_app1 in Ha by lia.
    replace i with (length l - 1)%nat in Ha by lia.
    assert (l <> []) by (destruct l; [cbn in *; lia|discriminate]).
    rewrite nth_last in Ha by assumption. rewrite P by assumption. congruence.
Qed.
Lemma linked_agree l1 l2 c x : lk l1 -> lk l2 -> nth_error l1 c = Some x -> nth_error l2 c = Some x ->
  firstn (S c) l1 = firstn (S c) l2.
Proof.
  rewrite !linked_nth. intros H1 H2. revert x. induction c as [|c IH]; intros x E1 E2.
  - destruct l1, l2; try discriminate. cbn in *. congruence.
  - assert (exists y, nth_error l1 c = Some y) as [y Y1].
    { destruct (nth_error l1 c) eqn:E; eauto. apply nth_error_None in E. assert (S c < length l1)%nat by (apply nth_error_Some; congruence). lia. }
    assert (exists z, nth_error l2 c = Some z) as [z Z2].
    { destruct (nth_error l2 c) eqn:E; eauto. apply nth_error_None in E. assert (S c < length l2)%nat by (apply nth_error_Some; congruence). lia. }
    pose proof (H1 _ _ _ Y1 E1). pose proof (H2 _ _ _ Z2 E2). subst y z.
    specialize (IH _ Y1 Z2).
    assert (G : forall (l : list bytes) k v, nth_error l k = Some v -> firstn (S k) l = firstn k l ++ [v]).
    { clear. induction l as [|u l IHl]; intros [|k] v E; try discriminate; cbn in *; [congruence|]. f_equal. apply IHl. exact E. }
    rewrite (G _ _ _ E1), (G _ _ _ E2), IH. reflexivity.
Qed.
Definition LS (v : store) : Prop := forall t, lk (cur (v t)) /\ lk (com (v t)) /\ starts genesis (cur (v t)) /\ starts genesis (com (v t)).
Lemma LS_put v t l : LS v -> lk l -> starts genesis l -> LS (put v t l).
Proof. intros H A B u. specialize (H u). destruct t, u; cbn; tauto. Qed.
Lemma reorg_linked l1 l2 c : lk l1 -> lk l2 -> common l1 l2 = Some c -> forall h, (h < length l1)%nat ->
  firstn (S (min c h)) l2 ++ skipn (S c) (firstn (S h) l1) = firstn (S h) l1.
Proof.
  intros A B E h Hh. destruct (common_spec _ _ _ E) as [(x & X1 & X2) _].
  pose proof (linked_agree _ _ _ _ A B X1 X2) as F.
  destruct (Nat.le_gt_cases c h) as [G|G].
  - rewrite Nat.min_l by lia. rewrite <- F. rewrite <- (firstn_skipn (S c) (firstn (S h) l1)) at 2.
    rewrite firstn_firstn, Nat.min_l by lia. reflexivity.
  - rewrite Nat.min_r by lia. rewrite skipn_all2 by (rewrite firstn_length; lia). rewrite app_nil_r.
    assert (Q : firstn (S h) (firstn (S c) l2) = firstn (S h) (firstn (S c) l1)) by (rewrite F; reflexivity).
    rewrite !firstn_firstn, !Nat.min_l in Q by lia. exact Q.
Qed.
Lemma step_linked v o : LS v ->
  on_parent parent v o -> LS (snd (spec_step v o)).
Proof.
  intros H Hadd. destruct o; cbn [ChainSpec.spec_step]; try exact H.
  - destruct (N.eqb_spec height (size (cur (v t)))); [|exact H]. cbn [snd]. destruct (H t) as (A & B & [u Eu] & D).
    apply LS_put; auto; [apply linked_snoc; auto|]. rewrite Eu. exists (u ++ [hash]). reflexivity.
  - destruct (_ <? _); [|exact H]. cbn [snd]. destruct (H t) as (A & B & [u Eu] & D).
    apply LS_put; auto; [apply linked_firstn; auto|]. rewrite Eu. eexists; reflexivity.
  - destruct (N.ltb_spec height (size (cur (v source)))) as [L|L]; [|exact H].
    destruct (common _ _) as [c|] eqn:Ec; [|exact H]. cbn [snd].
    destruct (H source) as (A & B & [u Eu] & D). destruct (H destination) as (A2 & B2 & E2 & D2).
    rewrite (reorg_linked _ _ _ A A2 Ec) by (unfold size in *; lia).
    apply LS_put; auto; [apply linked_firstn; auto|]. rewrite Eu. eexists; reflexivity.
  - destruct (common _ _) as [c|] eqn:Ec; [|exact H]. cbn [snd].
    destruct (H source) as (A & B & [u Eu] & D). destruct (H destination) as (A2 & B2 & E2 & D2).
    destruct (common_spec _ _ _ Ec) as [(x & X1 & X2) _].
    rewrite <- (linked_agree _ _ _ _ A A2 X1 X2), firstn_skipn. apply LS_put; auto. exists u. exact Eu.
  - destruct (block_at _ _) as [x|] eqn:Ex; [|exact H]. destruct (N.eqb_spec height (size (cur (v destination)))) as [G|G]; [|exact H].
    cbn [snd]. destruct (H source) as (A & B & S1 & D). destruct (H destination) as (A2 & B2 & [u Eu] & D2).
    apply LS_put; [exact H| |rewrite Eu; exists (u ++ [x]); reflexivity].
    apply linked_snoc; [exact A2|]. intros _. apply (Hadd G x Ex).
  - intros t. destruct (H t) as (A & B & C & D). cbn. tauto.
  - intros t. destruct (H t) as (A & B & C & D). cbn. tauto.
  - intros t. destruct (H t) as (A & B & C & D). cbn. tauto.
  - intros t. destruct (H t) as (A & B & C & D). cbn. tauto.
Qed.
Lemma run_linked ops : forall v, LS v -> adds_linked parent v ops -> LS (snd (spec_run v ops)).
Proof.
  induction ops as [|o ops IH]; intros v H A; [exact H|]. destruct A as [A1 A2]. cbn [ChainSpec.spec_run].
  pose proof (step_linked v o H A1) as H1. destruct (spec_step v o) as [r v1]. cbn [snd] in *.
  specialize (IH v1 H1 A2). destruct (spec_run v1 ops) as [rs v2]. exact IH.
Qed.
End Link.
