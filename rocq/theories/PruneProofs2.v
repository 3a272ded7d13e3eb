From Coq Require Import Sorted.
From Verif Require Import Base Bytes MMRIndexModel MMRIndexSpec MMRIndexProofs MMRHashModel MMRHashSpec MMRHashProofs FileModel BitmapModel BitmapProofs PruneModel PruneSpec PruneProofs.
Local Open Scope N_scope.
Strategy opaque [CalculateHeight].

(** * keep and counting *)
Fixpoint cnt (gone : N -> bool) (i : N) (n : nat) : N :=
  match n with O => 0 | S m => (if gone i then 1 else 0) + cnt gone (i + 1) m end.
Lemma cnt_le g n : forall i, cnt g i n <= N.of_nat n.
Proof. induction n as [|n IH]; intros i; cbn [cnt]; [lia|]. specialize (IH (i + 1)). destruct (g i); lia. Qed.
Lemma cnt_snoc g n : forall i, cnt g i (S n) = cnt g i n + (if g (i + N.of_nat n) then 1 else 0).
Proof.
  induction n as [|n IH]; intros i.
  - cbn [cnt N.of_nat]. rewrite !N.add_0_r. lia.
  - change (cnt g i (S (S n))) with ((if g i then 1 else 0) + cnt g (i + 1) (S n)). rewrite IH. cbn [cnt].
    replace (i + 1 + N.of_nat n) with (i + N.of_nat (S n)) by lia. lia.
Qed.
Lemma keep_nth {A} g (l : list A) : forall i p, g (i + N.of_nat p) = false -> (p < length l)%nat ->
  nth_error (keep g i l) (p - N.to_nat (cnt g i p)) = nth_error l p.
Proof.
  induction l as [|x l IH]; intros i p G L; cbn [length] in L; [lia|]. destruct p as [|p]; cbn [cnt keep].
  - rewrite N.add_0_r in G. rewrite G. reflexivity.
  - pose proof (cnt_le g p (i + 1)). destruct (g i) eqn:E.
    + replace (S p - N.to_nat (1 + cnt g (i + 1) p))%nat with (p - N.to_nat (cnt g (i + 1) p))%nat by lia.
      rewrite IH; [reflexivity | replace (i + 1 + N.of_nat p) with (i + N.of_nat (S p)) by lia; exact G | lia].
    + replace (S p - N.to_nat (0 + cnt g (i + 1) p))%nat with (S (p - N.to_nat (cnt g (i + 1) p)))%nat by lia.
      cbn [nth_error]. apply IH; [replace (i + 1 + N.of_nat p) with (i + N.of_nat (S p)) by lia; exact G | lia].
Qed.
Lemma keep_length {A} g (l : list A) : forall i, nlen (keep g i l) + cnt g i (length l) = nlen l.
Proof.
  unfold nlen. induction l as [|x l IH]; intros i; [reflexivity|]. cbn [keep length cnt]. specialize (IH (i + 1)). destruct (g i); cbn [length]; lia.
Qed.
Lemma keep_firstn {A} g n (l : list A) : forall i, (n <= length l)%nat -> firstn (n - N.to_nat (cnt g i n)) (keep g i l) = keep g i (firstn n l).
Proof.
  revert l. induction n as [|n IH]; intros l i L; [reflexivity|]. destruct l as [|x l]; [cbn in L; lia|]. cbn [length] in L.
  cbn [firstn keep cnt]. pose proof (cnt_le g n (i + 1)). destruct (g i) eqn:E.
  - replace (S n - N.to_nat (1 + cnt g (i + 1) n))%nat with (n - N.to_nat (cnt g (i + 1) n))%nat by lia. apply IH. lia.
  - replace (S n - N.to_nat (0 + cnt g (i + 1) n))%nat with (S (n - N.to_nat (cnt g (i + 1) n)))%nat by lia. cbn [firstn]. f_equal. apply IH. lia.
Qed.
Lemma keep_snoc {A} g (l : list A) x : forall i, g (i + nlen l) = false -> keep g i (l ++ [x]) = keep g i l ++ [x].
Proof.
  unfold nlen. induction l as [|y l IH]; intros i G; cbn [app keep].
  - rewrite N.add_0_r in G. rewrite G. reflexivity.
  - cbn [length] in G. rewrite IH by (replace (i + 1 + N.of_nat (length l)) with (i + N.of_nat (S (length l))) by lia; exact G). destruct (g i); reflexivity.
Qed.

(** * Counting a union of disjoint intervals *)
Section Intervals.
Variables a b : N -> N.
Definition within (p r : N) : bool := (a r <=? p) && (p <? b r).
Inductive disjoint_list : list N -> Prop :=
| dl_nil : disjoint_list []
| dl_cons r l : a r <= b r -> Forall (fun x => b r <= a x) l -> disjoint_list l -> disjoint_list (r :: l).
Definition part (p r : N) : N := N.min p (b r) - N.min p (a r).
Lemma sum_part_step l p : disjoint_list l -> sum (part (p + 1)) l = sum (part p) l + (if existsb (within p) l then 1 else 0).
Proof.
  intros D. induction D as [|r l Hr F D IH]; [reflexivity|]. cbn [sum existsb]. rewrite IH.
  unfold within at 2. unfold part at 1 3.
  destruct (N.leb_spec (a r) p) as [A1|A1], (N.ltb_spec p (b r)) as [B1|B1]; cbn [andb orb].
  2-4: (generalize (existsb (within p) l); intros e; destruct e; lia).
  assert (E : existsb (within p) l = false).
  { clear - F B1. induction F as [|x l Hx F IH]; [reflexivity|]. cbn [existsb]. rewrite IH. unfold within.
    destruct (N.leb_spec (a x) p); [lia | reflexivity]. }
  rewrite E. lia.
Qed.
Lemma cnt_intervals gone l : disjoint_list l -> (forall q, gone q = true <-> exists r, In r l /\ a r <= q < b r) ->
  forall n, cnt gone 0 n = sum (part (N.of_nat n)) l.
Proof.
  intros D G. assert (GE : forall q, gone q = existsb (within q) l).
  { intros q. apply eq_true_iff_eq. rewrite G, existsb_exists. unfold within. split; intros (r & I & Q); exists r; (split; [exact I|]).
    - apply andb_true_iff. rewrite N.leb_le, N.ltb_lt. exact Q.
    - apply andb_true_iff in Q. rewrite N.leb_le, N.ltb_lt in Q. exact Q. }
  induction n as [|n IH].
  - cbn [cnt]. clear. induction l as [|r l IH]; [reflexivity|]. cbn [sum]. rewrite <- IH. unfold part. cbn [N.of_nat]. lia.
  - rewrite cnt_snoc, IH, GE. rewrite N.add_0_l. replace (N.of_nat (S n)) with (N.of_nat n + 1) by lia. symmetry. apply sum_part_step. exact D.
Qed.
Lemma sum_part_before l p f : (forall r, In r l -> r < p -> a r <= b r <= p /\ f r = b r - a r) -> (forall r, In r l -> p <= r -> p <= a r /\ a r <= b r) ->
  sum (part p) l = sum f (before l p).
Proof.
  induction l as [|r l IH]; intros H1 H2; [reflexivity|]. unfold before. cbn [sum filter].
  rewrite IH; [|intros; apply H1; [right; assumption | assumption]|intros; apply H2; [right; assumption | assumption]]. fold (before l p). unfold part.
  destruct (N.ltb_spec r p) as [L|L]; cbn [sum].
  - destruct (H1 r (or_introl eq_refl) L) as [Q E]. rewrite E. lia.
  - destruct (H2 r (or_introl eq_refl) L). lia.
Qed.
End Intervals.

Definition gone_chain (roots : list N) (gone : N -> bool) : Prop := forall q, gone q = true <-> exists r, In r roots /\ lo r <= q < r.
Lemma gone_iff_chain roots gone : chain_free roots -> gone_iff roots gone <-> gone_chain roots gone.
Proof.
  intros (_ & B & _). rewrite Forall_forall in B. unfold gone_iff, gone_chain. split; intros G q; rewrite G; split; intros (r & I & D); exists r; (split; [exact I|]);
    specialize (B r I); apply (descendant_interval r q ltac:(lia)); exact D.
Qed.
Lemma chain_disjoint roots : chain_free roots -> disjoint_list lo (fun r => r) roots.
Proof.
  induction roots as [|r l IH]; intros C; constructor.
  - unfold lo. lia.
  - destruct (chain_free_cons _ _ C) as (_ & _ & F). eapply Forall_impl; [|exact F]. cbn. intros. lia.
  - apply IH. apply (chain_free_cons _ _ C).
Qed.
(** a boundary that no pruned subtree straddles *)
Definition clean (roots : list N) (p : N) : Prop := forall r, In r roots -> r < p \/ p <= lo r.
Lemma count_clean roots gone p : chain_free roots -> gone_chain roots gone -> clean roots p ->
  cnt gone 0 (N.to_nat p) = sum shf (before roots p).
Proof.
  intros C G K. rewrite (cnt_intervals lo (fun r => r) gone roots (chain_disjoint _ C) G). rewrite N2Nat.id.
  apply sum_part_before; intros r I L; destruct C as (_ & B & _); rewrite Forall_forall in B; specialize (B r I).
  - pose proof (shf_le r ltac:(lia)). unfold lo. lia.
  - destruct (K r I); [lia|]. unfold lo in *. lia.
Qed.
Lemma count_kept roots gone p : chain_free roots -> gone_chain roots gone -> gone p = false -> cnt gone 0 (N.to_nat p) = sum shf (before roots (p + 1)).
Proof.
  intros C G K. rewrite (cnt_intervals lo (fun r => r) gone roots (chain_disjoint _ C) G). rewrite N2Nat.id.
  assert (NG : forall r, In r roots -> lo r <= p < r -> False).
  { intros r I Q. assert (gone p = true) by (apply G; exists r; split; assumption). congruence. }
  assert (EQ : sum (part lo (fun r => r) p) roots = sum (part lo (fun r => r) (p + 1)) roots).
  { rewrite sum_part_step by (apply chain_disjoint, C). replace (existsb (within lo (fun r => r) p) roots) with false; [lia|].
    symmetry. apply not_true_is_false. intros X. apply existsb_exists in X. destruct X as (r & I & Q). unfold within in Q.
    apply andb_true_iff in Q. rewrite N.leb_le, N.ltb_lt in Q. exact (NG r I Q). }
  rewrite EQ. apply sum_part_before; intros r I L; pose proof C as (_ & B & _); rewrite Forall_forall in B; specialize (B r I).
  - pose proof (shf_le r ltac:(lia)). unfold lo. lia.
  - destruct (N.lt_ge_cases p (lo r)); [unfold lo in *; lia|]. exfalso. apply (NG r I). lia.
Qed.
Lemma gone_above roots gone n p : gone_chain roots gone -> Forall (fun r => r < n) roots -> n <= p -> gone p = false.
Proof.
  intros G F L. apply not_true_is_false. intros X. apply G in X. destruct X as (r & I & Q). rewrite Forall_forall in F. specialize (F r I). lia.
Qed.

(** * Hash file *)
Lemma get_hash roots gone F p : chain_free roots -> gone_chain roots gone -> p + 1 < W32 -> p < nlen F ->
  P_GetHashAt (PL_Load (one_based roots)) (keep gone 0 F) p = if gone p then Throw else GetDataAt F p.
Proof.
  intros C G Hp L. unfold P_GetHashAt.
  assert (E : IsCompacted (PL_Load (one_based roots)) p = gone p).
  { apply eq_true_iff_eq. rewrite is_compacted_spec by assumption. symmetry. apply G. }
  rewrite E. destruct (gone p) eqn:EG; [reflexivity|].
  rewrite load_shift by (try exact C; rewrite add64_small by lia; lia). rewrite add64_small by lia.
  rewrite <- (count_kept roots gone p C G EG). pose proof (cnt_le gone (N.to_nat p) 0) as CL.
  rewrite sub64_small by lia. unfold GetDataAt. rewrite N2Nat.inj_sub.
  rewrite keep_nth; [reflexivity | rewrite N.add_0_l, N2Nat.id; exact EG | unfold nlen in L; lia].
Qed.
Lemma total_shift roots gone (F : list bytes) : chain_free roots -> gone_chain roots gone -> Forall (fun r => r < nlen F) roots ->
  PL_GetTotalShift (PL_Load (one_based roots)) = cnt gone 0 (length F).
Proof.
  intros C G FB. rewrite load_total_shift by exact C.
  replace (length F) with (N.to_nat (nlen F)) by (unfold nlen; lia).
  rewrite (count_clean roots gone (nlen F) C G).
  - f_equal. clear - FB. symmetry. unfold before. induction FB as [|r l Hr FB IH]; [reflexivity|]. cbn [filter].
    destruct (N.ltb_spec r (nlen F)); [f_equal; exact IH | lia].
  - intros r I. left. rewrite Forall_forall in FB. apply FB, I.
Qed.
Lemma get_size roots gone F : chain_free roots -> gone_chain roots gone -> Forall (fun r => r < nlen F) roots -> nlen F < W64 ->
  P_GetSize (PL_Load (one_based roots)) (keep gone 0 F) = nlen F.
Proof.
  intros C G FB L. unfold P_GetSize. rewrite (total_shift roots gone F C G FB).
  pose proof (keep_length gone F 0) as K. unfold GetSize. unfold nlen in *. rewrite add64_small by lia. lia.
Qed.

(** * Appending *)
Lemma child_kept roots gone H par l r n c : gone_chain roots gone -> Forall (fun x => x < n) roots -> chain_free roots ->
  subtree (PNode par l r) (big_tree H) -> par < W64 -> (root_pos l = c \/ root_pos r = c) -> n <= par -> gone c = false.
Proof.
  intros G FB C S B O L. apply not_true_is_false. intros X. apply G in X. destruct X as (x & I & Q).
  rewrite Forall_forall in FB. specialize (FB x I). destruct C as (_ & BD & _). rewrite Forall_forall in BD. specialize (BD x I).
  assert (Q2 : in_sub x par) by (apply (above_child H par l r c x S B O); [lia | unfold in_sub; lia | lia]).
  unfold in_sub in Q2. lia.
Qed.
Lemma not_leaf_node p : p < W64 -> IsLeaf (Index_At p) = false -> exists H l r, subtree (PNode p l r) (big_tree H).
Proof.
  intros Hp NL. destruct (position_in_big_tree p Hp) as (H & s & A & E). exists H.
  destruct s as [q|q l r]; cbn [root_pos] in E; subst q; [|exists l, r; exact A]. exfalso.
  assert (Z : CalculateHeight p = 0) by exact (height_of_subtree H (PLeaf p) A Hp).
  unfold IsLeaf, Index_At in NL. cbn [idx_height] in NL. rewrite Z in NL. discriminate.
Qed.
Section Hashing.
Variable B2 : bytes -> bytes.
Lemma AddParents_grows fuel : forall F idx F', AddParents B2 fuel F idx = Ret F' -> nlen F <= nlen F'.
Proof.
  intros F idx F' E. destruct (AddParents_extends B2 fuel F idx F' E) as (ext & ->). unfold nlen. rewrite app_length. lia.
Qed.
Lemma P_AddParents_sim roots gone n fuel : chain_free roots -> gone_chain roots gone -> Forall (fun r => r < n) roots ->
  forall F F', n <= nlen F -> nlen F' + 1 < W32 -> AddParents B2 fuel F (Index_At (nlen F)) = Ret F' ->
  P_AddParents B2 fuel (PL_Load (one_based roots)) (keep gone 0 F) (Index_At (nlen F)) = Ret (keep gone 0 F').
Proof.
  intros C G FB. induction fuel as [|fuel IH]; intros F F' L LB E.
  - cbn [AddParents P_AddParents] in *. destruct (IsLeaf (Index_At (nlen F))); [|discriminate]. congruence.
  - cbn [AddParents P_AddParents] in *. destruct (IsLeaf (Index_At (nlen F))) eqn:EL; [congruence|].
    assert (LF : nlen F <= nlen F').
    { destruct (GetLeftChild (Index_At (nlen F))) as [lc| |]; cbn [obind] in E; try discriminate.
      destruct (GetDataAt F (idx_position lc)); cbn [obind] in E; try discriminate.
      destruct (GetRightChild (Index_At (nlen F))) as [rc| |]; cbn [obind] in E; try discriminate.
      destruct (GetDataAt F (idx_position rc)); cbn [obind] in E; try discriminate.
      apply AddParents_grows in E. unfold nlen in *. rewrite app_length in E. cbn in E. lia. }
    destruct (not_leaf_node (nlen F) ltac:(lia) EL) as (H & l & r & S).
    pose proof (nav_correct H _ l r S ltac:(lia)) as (G1 & G2 & _). rewrite G1, G2 in *. cbn [obind] in *.
    change (idx_position (Index_At (root_pos l))) with (root_pos l) in *. change (idx_position (Index_At (root_pos r))) with (root_pos r) in *.
    assert (KL : gone (root_pos l) = false) by (apply (child_kept roots gone H (nlen F) l r n); auto; lia).
    assert (KR : gone (root_pos r) = false) by (apply (child_kept roots gone H (nlen F) l r n); auto; lia).
    assert (GD : forall p h, GetDataAt F p = Ret h -> p < nlen F).
    { intros p h X. unfold GetDataAt in X. destruct (nth_error F (N.to_nat p)) eqn:NE; [|discriminate].
      assert (N.to_nat p < length F)%nat by (apply nth_error_Some; congruence). unfold nlen. lia. }
    destruct (GetDataAt F (root_pos l)) as [hl| |] eqn:EHL; cbn [obind] in E; try discriminate.
    destruct (GetDataAt F (root_pos r)) as [hr| |] eqn:EHR; cbn [obind] in E; try discriminate.
    pose proof (GD _ _ EHL) as BL. pose proof (GD _ _ EHR) as BR.
    rewrite (get_hash roots gone F (root_pos l) C G) by lia. rewrite KL, EHL. cbn [obind].
    rewrite (get_hash roots gone F (root_pos r) C G) by lia. rewrite KR, EHR. cbn [obind].
    change (idx_position (Index_At (nlen F))) with (nlen F) in *.
    set (h := HashParentWithIndex B2 hl hr (nlen F)) in *.
    assert (NX : GetNext (Index_At (nlen F)) = Index_At (nlen (F ++ [h]))).
    { unfold GetNext. change (idx_position (Index_At (nlen F))) with (nlen F). rewrite add64_small by lia. f_equal. unfold nlen. rewrite app_length. cbn. lia. }
    rewrite NX in *. rewrite <- keep_snoc by (rewrite N.add_0_l; apply (gone_above roots gone n); auto).
    apply IH; auto. unfold nlen in *. rewrite app_length. lia.
Qed.
Lemma P_AddHashes_sim roots gone F x F' : chain_free roots -> gone_chain roots gone -> Forall (fun r => r < nlen F) roots ->
  nlen F' + 1 < W32 -> AddHashes B2 F x = Ret F' -> P_AddHashes B2 (PL_Load (one_based roots)) (keep gone 0 F) x = Ret (keep gone 0 F').
Proof.
  intros C G FB LB E. rewrite AddHashes_eq in E. unfold P_AddHashes.
  assert (LF : nlen F + 1 <= nlen F') by (apply AddParents_grows in E; unfold nlen in *; rewrite app_length in E; cbn in E; lia).
  assert (PS : add64 (GetSize (keep gone 0 F)) (PL_GetTotalShift (PL_Load (one_based roots))) = nlen F).
  { rewrite (total_shift roots gone F C G FB). pose proof (keep_length gone F 0) as K. unfold GetSize. unfold nlen in *. rewrite add64_small by lia. lia. }
  rewrite PS. change (GetSize F) with (nlen F) in E. set (h := HashLeafWithIndex B2 x (nlen F)) in *.
  rewrite <- keep_snoc by (rewrite N.add_0_l; apply (gone_above roots gone (nlen F)); auto; lia).
  rewrite add64_small in * by lia. replace (nlen F + 1) with (nlen (F ++ [h])) in * by (unfold nlen; rewrite app_length; cbn; lia).
  apply (P_AddParents_sim roots gone (nlen F) 64); auto. unfold nlen. rewrite app_length. cbn. lia.
Qed.
Lemma AppendAll_inv F x xs F' : AppendAll B2 F (x :: xs) = Ret F' -> exists F1, AddHashes B2 F x = Ret F1 /\ AppendAll B2 F1 xs = Ret F'.
Proof.
  intros E. destruct (AddHashes B2 F x) as [F1| |] eqn:EA.
  - exists F1. split; [reflexivity|]. rewrite <- (AppendAll_cons B2 F x xs F1 EA). exact E.
  - exfalso. assert (X : forall ys, fold_left (fun (acc : outcome (list bytes)) x => let* f := acc in AddHashes B2 f x) ys Throw = Throw) by (induction ys; auto).
    unfold AppendAll in E. cbn [fold_left obind] in E. rewrite EA, X in E. discriminate.
  - exfalso. assert (X : forall ys, fold_left (fun (acc : outcome (list bytes)) x => let* f := acc in AddHashes B2 f x) ys Fault = Fault) by (induction ys; auto).
    unfold AppendAll in E. cbn [fold_left obind] in E. rewrite EA, X in E. discriminate.
Qed.
Lemma P_AppendAll_sim roots gone xs : chain_free roots -> gone_chain roots gone -> forall F F', Forall (fun r => r < nlen F) roots ->
  nlen F' + 1 < W32 -> AppendAll B2 F xs = Ret F' -> P_AppendAll B2 (PL_Load (one_based roots)) (keep gone 0 F) xs = Ret (keep gone 0 F').
Proof.
  intros C G. induction xs as [|x xs IH]; intros F F' FB LB E.
  - unfold AppendAll, P_AppendAll in *. cbn [fold_left] in *. congruence.
  - assert (EX : exists F1, AddHashes B2 F x = Ret F1 /\ AppendAll B2 F1 xs = Ret F').
    { apply AppendAll_inv. exact E. }
    destruct EX as (F1 & E1 & E2).
    assert (GR : forall ys A B, AppendAll B2 A ys = Ret B -> nlen A <= nlen B).
    { induction ys as [|y ys IHy]; intros A B EA; [unfold AppendAll in EA; cbn in EA; assert (A = B) by congruence; subst; lia|].
      apply AppendAll_inv in EA. destruct EA as (A1 & EA1 & EA2). apply IHy in EA2. destruct (AddHashes_extends B2 A y A1 EA1) as (e & ->).
      unfold nlen in *. rewrite app_length in EA2. lia. }
    pose proof (GR _ _ _ E2) as G2. destruct (AddHashes_extends B2 F x F1 E1) as (e & EF1).
    pose proof (P_AddHashes_sim roots gone F x F1 C G FB ltac:(lia) E1) as PA.
    unfold P_AppendAll. rewrite (ofold_cons (P_AddHashes B2 (PL_Load (one_based roots))) _ _ _ _ PA). apply IH; auto.
    eapply Forall_impl; [|exact FB]. cbn. intros r Hr. rewrite EF1. unfold nlen in *. rewrite app_length. lia.
Qed.

(** * Root *)
Lemma RootLoop_sim roots gone F size : chain_free roots -> gone_chain roots gone -> forall ps h,
  Forall (fun p => p + 1 < W32 /\ p < nlen F /\ gone p = false) ps ->
  P_RootLoop B2 (PL_Load (one_based roots)) (keep gone 0 F) size ps h = RootLoop B2 F size ps h.
Proof.
  intros C G. induction ps as [|p ps IH]; intros h FP; [reflexivity|]. inversion FP as [|? ? (P1 & P2 & P3) FP']; subst.
  cbn [P_RootLoop RootLoop]. rewrite (get_hash roots gone F p C G P1 P2), P3. destruct (GetDataAt F p); cbn [obind]; auto.
Qed.
Lemma total_lt hs k : strictly_decreasing hs -> match hs with [] => True | h :: _ => (h < k)%nat end -> total hs <= p2 (S k) - 1.
Proof.
  revert k. induction hs as [|h hs IH]; intros k D L; cbn [total].
  - pose proof (p2_pos (S k)). lia.
  - cbn [strictly_decreasing] in D. destruct D as [D1 D2]. specialize (IH h D2 ltac:(destruct hs; auto)).
    assert (p2 (S (S h)) <= p2 (S k)) by (apply p2_mono; lia). rewrite p2_S in H. pose proof (p2_pos (S h)). lia.
Qed.
Lemma peaks_kept roots gone pre hs : chain_free roots -> gone_chain roots gone -> strictly_decreasing (pre ++ hs) ->
  total (pre ++ hs) < W32 -> Forall (fun r => r < total (pre ++ hs)) roots ->
  Forall (fun p => p < total (pre ++ hs) /\ gone p = false) (map root_pos (fst (forest (total pre) hs))).
Proof.
  intros C G. revert pre. induction hs as [|h hs IH]; intros pre D B FB; [constructor|].
  rewrite forest_cons. cbn [fst map]. assert (TA : total (pre ++ h :: hs) = total pre + (p2 (S h) - 1) + total hs).
  { clear. induction pre as [|x l IHl]; cbn [app total]; lia. }
  assert (DT : strictly_decreasing (h :: hs)).
  { clear - D. induction pre as [|x l IHl]; [exact D|]. cbn [app strictly_decreasing] in D. apply IHl, D. }
  constructor.
  - rewrite number_root. pose proof (p2_S h) as PS. pose proof (p2_pos h) as PP. split; [lia|].
    assert (S : exists K, subtree (fst (number (S h) (total pre))) (big_tree K)).
    { exists (S (match pre with [] => S h | x :: _ => x end)). unfold big_tree. rewrite <- (N.add_0_l (total pre)).
      assert (DP : strictly_decreasing pre /\ Forall (fun x => (S h <= x)%nat) pre).
      { clear - D. induction pre as [|x l IHl]; [split; [exact I | constructor]|]. cbn [app strictly_decreasing] in D. destruct D as [D1 D2].
        destruct (IHl D2) as [A F]. split.
        - cbn [strictly_decreasing]. split; [|exact A]. destruct l; [exact I | exact D1].
        - constructor; [|exact F]. destruct l as [|y l]; cbn [app] in D1; [lia|]. inversion F; subst. lia. }
      destruct DP as [DP1 DP2]. apply forest_subtree; [exact DP1 | exact DP2|]. destruct pre; lia. }
    destruct S as (K & S). rewrite number_S in S. cbn [fst] in S.
    pose proof (total_lt hs h ltac:(apply DT) ltac:(destruct hs; [exact I | apply DT])) as TL.
    apply (child_kept roots gone K _ _ _ (total (pre ++ h :: hs)) _ G FB C S).
    + rewrite (p2_S (S h)) || idtac. rewrite TA in B. rewrite PS. pose proof (p2_S h). lia.
    + left. apply number_root.
    + rewrite TA, ?PS in *. lia.
  - replace (total pre + (p2 (S h) - 1)) with (total (pre ++ [h])) by (clear; induction pre as [|x l IHl]; cbn [app total]; lia).
    replace (pre ++ h :: hs) with ((pre ++ [h]) ++ hs) in * by (rewrite <- app_assoc; reflexivity). apply IH; assumption.
Qed.
Lemma P_Root_sim roots gone F hs ts size : chain_free roots -> gone_chain roots gone -> strictly_decreasing hs -> forest 0 hs = (ts, size) ->
  size + 1 < W32 -> size <= nlen F -> Forall (fun r => r < size) roots ->
  P_Root B2 (PL_Load (one_based roots)) (keep gone 0 F) size = Root B2 F size.
Proof.
  intros C G D E B L FB. unfold P_Root, Root. destruct (size =? 0); [reflexivity|].
  pose proof (forest_total 0 hs) as T. rewrite E in T. cbn [snd] in T. rewrite N.add_0_l in T. rewrite T in *.
  rewrite (peaks_complete hs ts (total hs) D E ltac:(lia)).
  apply RootLoop_sim; auto. apply Forall_rev. pose proof (peaks_kept roots gone [] hs C G D ltac:(cbn [app]; lia) FB) as P.
  cbn [app total] in P. rewrite E in P. cbn [fst] in P. eapply Forall_impl; [|exact P]. cbn. intros p (P1 & P2). repeat split; [lia | lia | exact P2].
Qed.
End Hashing.

(** * Rewind of the hash file *)
Lemma P_RewindHashes_sim roots gone F n : chain_free roots -> gone_chain roots gone ->
  let pos := lidx_position (LeafIndex_At n) in
  clean roots pos -> pos <= nlen F -> pos < W32 -> 
  P_RewindHashes (PL_Load (one_based roots)) (keep gone 0 F) n = Ret (keep gone 0 (firstn (N.to_nat pos) F)).
Proof.
  intros C G pos K L B. unfold P_RewindHashes. fold pos.
  rewrite load_shift by (try exact C; rewrite succ_pred64 by lia; lia). rewrite succ_pred64 by lia.
  rewrite <- (count_clean roots gone pos C G K). pose proof (cnt_le gone (N.to_nat pos) 0) as CL.
  rewrite sub64_small by lia. cbv zeta.
  assert (LEN : nlen (keep gone 0 (firstn (N.to_nat pos) F)) = pos - cnt gone 0 (N.to_nat pos)).
  { pose proof (keep_length gone (firstn (N.to_nat pos) F) 0) as KL. unfold nlen in *. rewrite firstn_length_le in KL by lia. lia. }
  assert (FE : firstn (N.to_nat (pos - cnt gone 0 (N.to_nat pos))) (keep gone 0 F) = keep gone 0 (firstn (N.to_nat pos) F)).
  { rewrite N2Nat.inj_sub. apply keep_firstn. unfold nlen in L. lia. }
  rewrite FE. rewrite <- FE in LEN. unfold nlen in LEN. rewrite firstn_length in LEN. unfold GetSize.
  destruct (N.leb_spec (pos - cnt gone 0 (N.to_nat pos)) (N.of_nat (length (keep gone 0 F)))); [reflexivity | lia].
Qed.
