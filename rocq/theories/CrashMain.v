(** Proofs for C22: order of the pieces, crash states, restart. *)
From Verif Require Import Base Bytes FileModel FileProofs BitmapModel BitmapSpec BitmapProofs CrashModel CrashSpec CrashProofs.
Local Open Scope N_scope.

Section P.
Context {DB : Type}.
Notation session := (@session DB).
Notation storage := (@storage DB).
Notation effect := (@effect DB).
Implicit Types (ss : session) (st : storage).

Ltac none H := apply (il_none _ _ _ H); unfold threads; repeat apply Forall_cons; try apply Forall_nil; rewrite ?filter_app, ?filter_own; reflexivity.
Ltac fil H := rewrite ?filter_app, ?filter_own; cbn [piece_eqb dstore_eqb lstore_eqb app]; first [reflexivity | none H].
Ltac ord H := first
  [ apply ordered_split; [fil H|fil H]
  | apply ordered_app_l; [fil H|ord H] ].
Ltac pairs := rewrite ?filter_app, ?filter_own; split; reflexivity.
Ltac thr H a b c :=
  eapply (il_ordered _ _ _ _ H a b c); [reflexivity | ord H | repeat (apply Forall_cons; [pairs|]); apply Forall_nil ..].

Lemma commit_ordered ss es p q : before p q -> Commit_effects ss es -> ordered p q es.
Proof.
  intros [S1 G] C. rewrite commit_own in C. destruct C as (t & H & ->).
  destruct p as [[]|[]|], q as [[]|[]|]; cbn [stage group_of] in S1, G; try (exfalso; lia); try (exfalso; destruct G; discriminate); clear S1 G.
  all: try (ord H).
  all: do 4 (apply ordered_app_l; [fil H|]).
  all: unfold threads in H.
  all: first [ thr H (@nil (list effect)) (own ss (File KernelHashes) ++ own ss (File KernelData))
                 [own ss (File OutputHashes) ++ own ss (File OutputData) ++ own ss (Leaves OutputLeaves);
                  own ss (File ProofHashes) ++ own ss (File ProofData) ++ own ss (Leaves ProofLeaves)]
             | thr H [own ss (File KernelHashes) ++ own ss (File KernelData)]
                 (own ss (File OutputHashes) ++ own ss (File OutputData) ++ own ss (Leaves OutputLeaves))
                 [own ss (File ProofHashes) ++ own ss (File ProofData) ++ own ss (Leaves ProofLeaves)]
             | thr H [own ss (File KernelHashes) ++ own ss (File KernelData);
                      own ss (File OutputHashes) ++ own ss (File OutputData) ++ own ss (Leaves OutputLeaves)]
                 (own ss (File ProofHashes) ++ own ss (File ProofData) ++ own ss (Leaves ProofLeaves)) (@nil (list effect)) ].
Qed.

(** The order in which the threads run one after the other. *)
Definition in_turn ss : list effect :=
  own ss (File CandidateChain) ++ own ss (File ConfirmedChain) ++ own ss Database ++ own ss (File HeaderHashes) ++
  own ss (File KernelHashes) ++ own ss (File KernelData) ++
  own ss (File OutputHashes) ++ own ss (File OutputData) ++ own ss (Leaves OutputLeaves) ++
  own ss (File ProofHashes) ++ own ss (File ProofData) ++ own ss (Leaves ProofLeaves).
Lemma in_turn_commit ss : Commit_effects ss (in_turn ss).
Proof.
  apply commit_own. exists (concat (threads ss)). split; [apply il_exists|]. unfold in_turn, threads. cbn [concat].
  rewrite <- !app_assoc, app_nil_r. reflexivity.
Qed.
Definition order : list piece :=
  [File CandidateChain; File ConfirmedChain; Database; File HeaderHashes; File KernelHashes; File KernelData;
   File OutputHashes; File OutputData; Leaves OutputLeaves; File ProofHashes; File ProofData; Leaves ProofLeaves].
Definition pos (p : piece) : nat :=
  match p with
  | File CandidateChain => 0 | File ConfirmedChain => 1 | Database => 2 | File HeaderHashes => 3 | File KernelHashes => 4
  | File KernelData => 5 | File OutputHashes => 6 | File OutputData => 7 | Leaves OutputLeaves => 8 | File ProofHashes => 9
  | File ProofData => 10 | Leaves ProofLeaves => 11
  end.
Lemma in_turn_order ss : in_turn ss = flat_map (own ss) order.
Proof. unfold in_turn, order. cbn [flat_map]. rewrite app_nil_r. reflexivity. Qed.
Lemma filter_flat ss p l : forallb (fun q => negb (piece_eqb p q)) l = true -> filter (on p) (flat_map (own ss) l) = [].
Proof.
  induction l as [|q l IH]; intros H; [reflexivity|]. cbn [flat_map forallb] in *. apply andb_true_iff in H. destruct H as [A B].
  rewrite filter_app, filter_own. apply negb_true_iff in A. rewrite A. apply IH, B.
Qed.
Lemma in_turn_lt ss p q : (pos p < pos q)%nat -> ordered p q (in_turn ss).
Proof.
  intros L. rewrite in_turn_order. rewrite <- (firstn_skipn (S (pos p)) order), flat_map_app.
  apply ordered_split; apply filter_flat.
  - destruct p as [[]|[]|], q as [[]|[]|]; cbn [pos] in L; try lia; reflexivity.
  - destruct p as [[]|[]|]; reflexivity.
Qed.
Lemma in_turn_total ss p q : p <> q -> ordered p q (in_turn ss) \/ ordered q p (in_turn ss).
Proof.
  intros H. assert (pos p <> pos q) by (intros E; apply H; destruct p as [[]|[]|], q as [[]|[]|]; try reflexivity; discriminate).
  destruct (Nat.lt_total (pos p) (pos q)) as [L|[L|L]]; [left|contradiction|right]; apply in_turn_lt; assumption.
Qed.

Lemma prefix_cases p q ss es k : ok ss -> Commit_effects ss es -> ordered p q es ->
  is_old ss (apply_effects (firstn k es) (on_disk ss)) q \/ is_new ss (apply_effects (firstn k es) (on_disk ss)) p.
Proof.
  intros K C (a & b & -> & A & B). pose proof (filter_commit _ _ p C) as F. rewrite filter_app, B, app_nil_r in F.
  rewrite firstn_app. destruct (Nat.le_gt_cases k (length a)) as [L|L].
  - left. apply old_after. replace (k - length a)%nat with O by lia. cbn [firstn]. rewrite app_nil_r.
    apply filter_nil_in. intros x Hx. apply (proj1 (filter_nil_in _ _) A). rewrite <- (firstn_skipn k a). apply in_or_app; auto.
  - right. apply new_after; [assumption|]. rewrite filter_app, (firstn_all2 a) by lia. rewrite F.
    replace (filter (on p) (firstn (k - length a) b)) with (@nil effect); [apply app_nil_r|]. symmetry.
    apply filter_nil_in. intros x Hx. apply (proj1 (filter_nil_in _ _) B). rewrite <- (firstn_skipn (k - length a) b). apply in_or_app; auto.
Qed.
Lemma cut p q ss es : ok ss -> Commit_effects ss es -> ordered p q es ->
  exists k, is_new ss (apply_effects (firstn k es) (on_disk ss)) p /\ is_old ss (apply_effects (firstn k es) (on_disk ss)) q.
Proof.
  intros K C (a & b & -> & A & B). pose proof (filter_commit _ _ p C) as F. rewrite filter_app, B, app_nil_r in F.
  exists (length a). rewrite firstn_app, firstn_all, Nat.sub_diag. cbn [firstn]. rewrite app_nil_r.
  split; [apply new_after; assumption|apply old_after; assumption].
Qed.
Lemma change_excl ss st p : changes ss p -> is_old ss st p -> is_new ss st p -> False.
Proof.
  destruct p as [s|l|]; cbn.
  - congruence.
  - intros (j & H) A B. specialize (A j). specialize (B j). congruence.
  - intros (d & E & H) A B. rewrite E in B. congruence.
Qed.
Lemma not_atomic ss p q : reached ss -> p <> q -> changes ss p -> changes ss q -> ~ atomic ss.
Proof.
  intros R N Cp Cq A. apply reached_ok in R.
  assert (G : forall p q, changes ss p -> changes ss q -> ordered p q (in_turn ss) -> False).
  { clear - R A. intros p q Cp Cq O. destruct (cut p q ss _ R (in_turn_commit ss) O) as (k & Hn & Ho).
    destruct (A _ (ex_intro _ _ (ex_intro _ k (conj (in_turn_commit ss) eq_refl)))) as [H|H].
    - exact (change_excl _ _ p Cp (H p) Hn).
    - exact (change_excl _ _ q Cq Ho (H q)). }
  destruct (in_turn_total ss p q N) as [O|O]; [exact (G p q Cp Cq O)|exact (G q p Cq Cp O)].
Qed.
Lemma witness ss p q : reached ss -> before p q -> changes ss p -> changes ss q ->
  exists st, crash ss st /\ is_new ss st p /\ ~ is_old ss st p /\ is_old ss st q /\ ~ is_new ss st q.
Proof.
  intros R B Cp Cq. apply reached_ok in R.
  destruct (cut p q ss _ R (in_turn_commit ss) (commit_ordered _ _ _ _ B (in_turn_commit ss))) as (k & Hn & Ho).
  eexists. split; [exists (in_turn ss), k; split; [apply in_turn_commit|reflexivity]|].
  split; [exact Hn|]. split; [intros H; exact (change_excl _ _ p Cp H Hn)|]. split; [exact Ho|]. intros H. exact (change_excl _ _ q Cq Ho H).
Qed.
Lemma crash_order ss st p q : reached ss -> crash ss st -> before p q -> is_old ss st q \/ is_new ss st p.
Proof.
  intros R (es & k & C & ->) B. apply prefix_cases; [apply reached_ok; assumption|exact C|apply (commit_ordered ss); assumption].
Qed.
Lemma complete ss st p : reached ss -> committed_disk ss st -> is_new ss st p.
Proof. intros R (es & C & ->). apply new_after; [apply reached_ok; assumption|apply filter_commit; assumption]. Qed.

(** Each piece in a crash state. *)
Lemma crash_own ss st p : crash ss st -> exists m, agree p st (apply_effects (firstn m (own ss p)) (on_disk ss)).
Proof.
  intros (es & k & C & ->). pose proof (filter_commit _ _ p C) as F. destruct (filter_firstn (on p) k es) as (m & E).
  exists m. rewrite <- F, <- E. apply agree_run, agree_refl.
Qed.
Lemma crash_file ss st s : reached ss -> crash ss st ->
  data_on_disk st s = disk (m_pFile (file ss s)) \/
  exists m, data_on_disk st s = firstn (N.to_nat (m_bufferIndex (m_pFile (file ss s)))) (disk (m_pFile (file ss s))) ++ firstn m (m_buffer (m_pFile (file ss s))).
Proof.
  intros R C. apply reached_ok in R. destruct (crash_own ss st (File s) C) as (m & A). cbn [agree own] in A.
  rewrite (file_prefix ss s m (on_disk ss) (proj1 R s) eq_refl) in A.
  destruct (file_effects ss s); [left; exact A|]. destruct m; [left; exact A|right; eauto].
Qed.
Lemma crash_leaf ss st l j : reached ss -> crash ss st ->
  bit_of (leaves_on_disk st l) j = bit_of (bdisk (leafset ss l)) j \/ bit_of (leaves_on_disk st l) j = IsSet (leafset ss l) j.
Proof.
  intros R C. apply reached_ok in R. destruct (crash_own ss st (Leaves l) C) as (m & A). cbn [agree own] in A. rewrite A.
  apply leaf_prefix; [apply R|reflexivity].
Qed.
Lemma crash_db ss st : crash ss st -> is_old ss st Database \/ is_new ss st Database.
Proof.
  intros C. destruct (crash_own ss st Database C) as (m & A). cbn [agree own is_old is_new] in *. rewrite A. unfold db_effects.
  destruct (db_pending ss) as [d|]; [|rewrite firstn_nil; left; reflexivity].
  destruct m; [left; reflexivity|right]. cbn [firstn]. rewrite firstn_nil. reflexivity.
Qed.

(** Reading after a restart. *)
Lemma read_prefix n a b c i : i * n + n <= nlen a -> i * n + n < W64 -> 0 < n ->
  DF_GetDataAt n (DF_Load (a ++ b)) i = DF_GetDataAt n (DF_Load (a ++ c)) i.
Proof.
  intros H W P. unfold DF_GetDataAt, AOF_Read. cbn [DF_Load m_pFile AOF_Load m_bufferIndex disk]. unfold mul64. rewrite N.mod_small by lia.
  rewrite !nlen_app. replace (i * n <? nlen a + nlen b) with true by lia. replace (i * n <? nlen a + nlen c) with true by lia.
  replace (i * n + n <=? nlen a + nlen b) with true by lia. replace (i * n + n <=? nlen a + nlen c) with true by lia.
  f_equal. unfold slice. unfold nlen in H. rewrite !skipn_app, !firstn_app, !skipn_length.
  replace (N.to_nat n - (length a - N.to_nat (i * n)))%nat with O by lia. cbn [firstn]. reflexivity.
Qed.
Lemma kept_records ss st s i : reached ss -> crash ss st -> i * record_size s + record_size s <= m_bufferIndex (m_pFile (file ss s)) ->
  i * record_size s + record_size s < W64 ->
  DF_GetDataAt (record_size s) (DF_Load (data_on_disk st s)) i = DF_GetDataAt (record_size s) (DF_Load (disk (m_pFile (file ss s)))) i.
Proof.
  intros R C B W. destruct (crash_file ss st s R C) as [->|(m & ->)]; [reflexivity|].
  destruct (proj1 (reached_ok _ R) s) as (A1 & A2 & _).
  rewrite <- (firstn_skipn (N.to_nat (m_bufferIndex (m_pFile (file ss s)))) (disk (m_pFile (file ss s)))) at 2.
  apply read_prefix; [rewrite nlen_firstn by lia; exact B|exact W|destruct s; cbn; lia].
Qed.

(** A torn record. *)
Lemma flush_prefix ss s m : okfile (file ss s) -> m_buffer (m_pFile (file ss s)) <> [] -> (m <= length (m_buffer (m_pFile (file ss s))))%nat ->
  exists st, crash ss st /\ data_on_disk st s = firstn (N.to_nat (m_bufferIndex (m_pFile (file ss s)))) (disk (m_pFile (file ss s))) ++ firstn m (m_buffer (m_pFile (file ss s))).
Proof.
  intros K NE L.
  assert (P : forall x y, in_turn ss = x ++ own ss (File s) ++ y -> filter (on (File s)) x = [] ->
    exists st, crash ss st /\ data_on_disk st s = data_on_disk (apply_effects (firstn (S m) (file_effects ss s)) (on_disk ss)) s).
  { intros x y E F. eexists. split; [exists (in_turn ss), (length x + S m)%nat; split; [apply in_turn_commit|reflexivity]|].
    rewrite E. rewrite firstn_app_2. cbn [own].
    pose proof (agree_run (File s) (x ++ firstn (S m) (file_effects ss s ++ y)) (on_disk ss) (on_disk ss) (agree_refl _ _)) as G.
    cbn [agree] in G. rewrite G. rewrite filter_app, F. cbn [app].
    assert (D : file_effects ss s = Truncate s (m_bufferIndex (m_pFile (file ss s))) :: map (Put s) (m_buffer (m_pFile (file ss s)))).
    { unfold file_effects. destruct K as (A & B & C). destruct (m_dirty (file ss s)) eqn:D; [|destruct (C eq_refl); contradiction].
      unfold flush_effects. destruct (_ && _) eqn:E1; [|replace (_ <? _) with false by lia; reflexivity].
      destruct (m_buffer (m_pFile (file ss s))); [contradiction|]. unfold nlen in E1; cbn in E1; lia. }
    assert (LD : (S m <= length (file_effects ss s))%nat) by (rewrite D; cbn [length]; rewrite map_length; lia).
    rewrite firstn_app. replace (S m - length (file_effects ss s))%nat with O by lia. cbn [firstn]. rewrite app_nil_r.
    rewrite (filter_all (on (File s))); [reflexivity|].
    intros e He. assert (In e (file_effects ss s)) by (rewrite <- (firstn_skipn (S m) (file_effects ss s)); apply in_or_app; auto).
    rewrite (in_own ss (File s) (File s) e) by assumption. cbn. apply dstore_eqb_eq. reflexivity. }
  assert (Q : exists x y, in_turn ss = x ++ own ss (File s) ++ y /\ filter (on (File s)) x = []).
  { unfold in_turn.
    assert (J : forall a l, filter (on (File s)) a = [] -> (exists x y, l = x ++ own ss (File s) ++ y /\ filter (on (File s)) x = []) ->
              exists x y, a ++ l = x ++ own ss (File s) ++ y /\ filter (on (File s)) x = []).
    { intros a l Ha (x & y & -> & Hx). exists (a ++ x), y. rewrite app_assoc, filter_app, Ha, Hx. auto. }
    destruct s; repeat first [ exists []; eexists; split; [reflexivity|reflexivity] | apply J; [rewrite filter_own; reflexivity|] ].
    all: try (exists [], []; rewrite app_nil_r; split; reflexivity). }
  destruct Q as (x & y & E & F). destruct (P x y E F) as (st & C & D). exists st. split; [exact C|]. rewrite D.
  rewrite (file_prefix ss s (S m) (on_disk ss) K eq_refl).
  assert (D2 : file_effects ss s <> []).
  { unfold file_effects. destruct K as (A & B & C1). destruct (m_dirty (file ss s)) eqn:D1; [|destruct (C1 eq_refl); contradiction].
    unfold flush_effects. destruct (_ && _) eqn:E1; [|replace (_ <? _) with false by lia; discriminate].
    destruct (m_buffer (m_pFile (file ss s))); [contradiction|]. unfold nlen in E1; cbn in E1; lia. }
  destruct (file_effects ss s); [contradiction|]. reflexivity.
Qed.
Lemma torn ss s count b rest r : reached ss -> only_appended (file ss s) -> nlen (disk (m_pFile (file ss s))) = count * record_size s ->
  m_buffer (m_pFile (file ss s)) = b :: rest -> nlen r = record_size s -> count * record_size s + record_size s < W64 ->
  exists st, crash ss st /\
    let d := DF_AddData (DF_Load (data_on_disk st s)) r in
    DF_GetSize (record_size s) d = count + 1 /\ DF_GetSize (record_size s) (DF_Load (data_on_disk st s)) = count /\
    exists d', DF_Commit d = Ret d' /\ DF_GetDataAt (record_size s) d' count = Ret (b :: firstn (length r - 1) r).
Proof.
  intros R Oa Al Bf Lr W. unfold only_appended in Oa. fold (nlen (disk (m_pFile (file ss s)))) in Oa. destruct (reached_ok _ R) as [K _].
  destruct (flush_prefix ss s 1 (K s)) as (st & C & D); [rewrite Bf; discriminate|rewrite Bf; cbn; lia|].
  exists st. split; [exact C|]. rewrite Bf, Oa in D. cbn [firstn] in D. rewrite firstn_all2 in D by (unfold nlen; lia).
  set (n := record_size s) in *. assert (P : 1 < n) by (unfold n; destruct s; cbn; lia).
  rewrite D. set (dk := disk (m_pFile (file ss s))) in *. cbn zeta.
  assert (Ldk : nlen (dk ++ [b]) = count * n + 1) by (rewrite nlen_app, Al; reflexivity).
  unfold DF_GetSize, AOF_GetSize. cbn [DF_AddData DF_Load AOF_Load AOF_Append m_pFile m_bufferIndex m_buffer app].
  rewrite Ldk, Lr. split; [|split].
  - symmetry. apply (N.div_unique _ _ _ 1); lia.
  - replace (nlen (@nil N)) with 0 by reflexivity. symmetry. apply (N.div_unique _ _ _ 1); lia.
  - eexists. unfold DF_Commit. cbn [m_dirty DF_AddData AOF_Flush m_pFile m_fileSize m_bufferIndex m_buffer AOF_Append DF_Load AOF_Load app disk].
    unfold AOF_Flush. cbn [m_pFile m_fileSize m_bufferIndex m_buffer AOF_Append DF_Load AOF_Load app disk]. rewrite Lr.
    replace (n =? 0) with false by lia. rewrite andb_false_r. replace (nlen (dk ++ [b]) <? nlen (dk ++ [b])) with false by lia.
    split; [reflexivity|].
    unfold DF_GetDataAt, AOF_Read. cbn [m_pFile m_bufferIndex disk]. unfold mul64. rewrite N.mod_small by lia.
    unfold Mapped_Write, truncate. replace (nlen (dk ++ [b]) <=? nlen (dk ++ [b])) with true by lia.
    rewrite firstn_all2 by (unfold nlen; lia). rewrite Ldk.
    replace (count * n <? count * n + 1 + n) with true by lia. rewrite nlen_app, Ldk, Lr. replace (count * n + n <=? count * n + 1 + n) with true by lia.
    f_equal. unfold slice. rewrite <- app_assoc. rewrite skipn_app. unfold nlen in Al, Lr.
    replace (N.to_nat (count * n) - length dk)%nat with O by lia. rewrite skipn_all2 by lia. cbn [skipn app].
    replace (N.to_nat n) with (S (length r - 1)) by lia. reflexivity.
Qed.
End P.
