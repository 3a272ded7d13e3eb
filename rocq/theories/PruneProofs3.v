From Coq Require Import Sorted.
From Verif Require Import Base Bytes MMRIndexModel MMRIndexSpec MMRIndexProofs MMRHashModel FileModel BitmapModel BitmapProofs PruneModel PruneSpec PruneProofs PruneProofs2.
Local Open Scope N_scope.
Strategy opaque [CalculateHeight].

(** * Leaves *)
Definition lpos (l : N) : N := lidx_position (LeafIndex_At l).
Definition lmax : N := 9223372036854775808.
Lemma lpos_mono l m : m <= lmax -> l < m -> lpos l < lpos m.
Proof. intros M L. apply leaf_position_increasing; assumption. Qed.
Lemma lpos_inj l m : l <= lmax -> m <= lmax -> lpos l = lpos m -> l = m.
Proof.
  intros A B E. destruct (N.lt_trichotomy l m) as [L|[L|L]]; [|exact L|].
  - pose proof (lpos_mono _ _ B L). lia.
  - pose proof (lpos_mono _ _ A L). lia.
Qed.
Lemma lpos_le l m : l <= lmax -> m <= lmax -> lpos l <= lpos m <-> l <= m.
Proof.
  intros A B. destruct (N.lt_trichotomy l m) as [L|[L|L]].
  - pose proof (lpos_mono _ _ B L). lia.
  - subst. lia.
  - pose proof (lpos_mono _ _ A L). lia.
Qed.
Lemma leaf_split h b s : subtree s (fst (number h b)) -> exists pre post, leaf_positions (fst (number h b)) = pre ++ leaf_positions s ++ post.
Proof.
  generalize (fst (number h b)) as t. induction 1 as [|p l r S IH|p l r S IH].
  - exists [], []. rewrite app_nil_r. reflexivity.
  - destruct IH as (x & y & E). exists x, (y ++ leaf_positions r). cbn [leaf_positions]. rewrite E, <- !app_assoc. reflexivity.
  - destruct IH as (x & y & E). exists (leaf_positions l ++ x), y. cbn [leaf_positions]. rewrite E, <- !app_assoc. reflexivity.
Qed.
Lemma position_below_is_leaf H s q : subtree s (big_tree H) -> q < W64 -> In q (positions s) -> (exists K, subtree (PLeaf q) (big_tree K)) -> In q (leaf_positions s).
Proof.
  intros A Hq I (K & L).
  assert (X : forall t, In q (positions t) -> exists u, subtree u t /\ root_pos u = q).
  { induction t as [p|p l IHl r IHr]; cbn [positions]; intros J.
    - destruct J as [<-|[]]. exists (PLeaf p). split; [constructor | reflexivity].
    - apply in_app_or in J. destruct J as [J|J]; [destruct (IHl J) as (u & U & R); exists u; split; [apply sub_left|]; assumption|].
      apply in_app_or in J. destruct J as [J|[<-|[]]]; [destruct (IHr J) as (u & U & R); exists u; split; [apply sub_right|]; assumption|].
      exists (PNode p l r). split; [constructor | reflexivity]. }
  destruct (X s I) as (u & U & R).
  assert (u = PLeaf q) by (apply (subtree_unique H K); [eapply subtree_trans; eassumption | exact L | exact R]). subst u.
  apply subtree_leaf_positions. exact U.
Qed.
Lemma leaf_in_positions t q : In q (leaf_positions t) -> In q (positions t).
Proof.
  induction t as [p|p l IHl r IHr]; cbn [leaf_positions positions]; [auto|]. intros I. apply in_app_or in I. apply in_or_app.
  destruct I as [I|I]; [left; auto | right; apply in_or_app; left; auto].
Qed.
Lemma lpos_nth l : l <= lmax -> exists K, nth_error (leaf_positions (big_tree K)) (N.to_nat l) = Some (lpos l) /\ lpos l < W64.
Proof.
  intros Hl. destruct (leaf_position_all l Hl) as (p & NE & PB & LA).
  assert (X : lpos l = p) by (unfold lpos; rewrite LA; reflexivity). rewrite X. exists 64%nat. exact (conj NE PB).
Qed.
Lemma lpos_subtree l : l <= lmax -> exists K, subtree (PLeaf (lpos l)) (big_tree K).
Proof.
  intros Hl. destruct (lpos_nth l Hl) as (K & NE & _). exists K. apply nth_error_In in NE. exact (leaf_positions_subtree _ _ _ NE).
Qed.
(** the leaves below (or at) [r] are a run of [2^height] leaf numbers starting at [la] *)
Lemma leaf_run r : r < W32 -> exists la, la + 2 ^ CalculateHeight r <= lmax /\ lpos la = lo r /\
  forall l, l <= lmax -> lpos l < W64 -> (lo r <= lpos l <= r <-> la <= l < la + 2 ^ CalculateHeight r).
Proof.
  intros Hr. assert (Hr64 : r < W64) by lia.
  assert (EX : exists K s, subtree s (fst (number K 0)) /\ root_pos s = r /\ p2 K <= lmax).
  { exists 40%nat. destruct (position_in_tree 40 0 r ltac:(lia)) as (s & S & E).
    { assert (W32 <= p2 41 - 1) by (vm_compute; discriminate). lia. }
    exists s. split; [exact S|]. split; [exact E|]. vm_compute. discriminate. }
  destruct EX as (K & s & S & E & KB).
  destruct (leaf_split _ _ _ S) as (pre & post & LP). change (fst (number K 0)) with (big_tree K) in *.
  pose proof (height_of_subtree K s S) as HS. rewrite E in HS. specialize (HS Hr64).
  destruct (subtree_number _ _ _ S) as (b & EB & _).
  assert (LL : N.of_nat (length (leaf_positions s)) = 2 ^ CalculateHeight r).
  { rewrite EB, leaf_positions_length, HS. reflexivity. }
  assert (TOT : N.of_nat (length pre) + 2 ^ CalculateHeight r <= lmax).
  { pose proof (leaf_positions_length K 0) as T. change (fst (number K 0)) with (big_tree K) in T. rewrite LP, !app_length in T.
    rewrite <- LL. lia. }
  assert (NTH : forall k, N.of_nat k < 2 ^ CalculateHeight r -> exists q, nth_error (leaf_positions s) k = Some q /\ lpos (N.of_nat (length pre + k)) = q /\ lo r <= q <= r).
  { intros k KL. rewrite <- LL in KL. destruct (nth_error (leaf_positions s) k) as [q|] eqn:NE; [|apply nth_error_None in NE; lia].
    exists q. split; [reflexivity|].
    assert (Q : lo r <= q <= r) by (apply (node_positions K s r q S E Hr64); apply leaf_in_positions; eapply nth_error_In; exact NE).
    split; [|exact Q]. unfold lpos. rewrite (LeafIndex_At_correct K (length pre + k) q); [reflexivity| |lia].
    rewrite LP, nth_error_app2 by lia. replace (length pre + k - length pre)%nat with k by lia.
    rewrite nth_error_app1; [exact NE|]. apply nth_error_Some. congruence. }
  assert (P1 : 1 <= 2 ^ CalculateHeight r) by (rewrite HS; apply p2_pos).
  exists (N.of_nat (length pre)). split; [exact TOT|].
  assert (FL : lpos (N.of_nat (length pre)) = lo r).
  { destruct (NTH 0%nat ltac:(lia)) as (q & NE & LE & Q). rewrite Nat.add_0_r in LE. rewrite LE.
    assert (HB : lo r = b).
    { assert (r = b + 2 * (p2 (tree_height s) - 1)) by (rewrite <- E; rewrite EB at 1; apply number_root).
      unfold lo, shf. rewrite HS. change (2 ^ N.of_nat (tree_height s)) with (p2 (tree_height s)). lia. }
    rewrite HB. rewrite EB in NE.
    assert (FP : forall h c, nth_error (leaf_positions (fst (number h c))) 0 = Some c).
    { clear. induction h as [|h IH]; intros c; [reflexivity|]. rewrite number_S. cbn [leaf_positions fst].
      rewrite nth_error_app1; [apply IH|]. pose proof (leaf_positions_length h c). pose proof (p2_pos h). lia. }
    rewrite FP in NE. congruence. }
  split; [exact FL|]. intros l Hl HP. split.
  - intros Q. assert (IN : In (lpos l) (leaf_positions s)).
    { apply (position_below_is_leaf K); [exact S | exact HP | apply (node_positions K s r (lpos l) S E Hr64); exact Q|].
      apply lpos_subtree, Hl. }
    apply In_nth_error in IN. destruct IN as (k & NE).
    assert (KL : (k < length (leaf_positions s))%nat) by (apply nth_error_Some; congruence).
    destruct (NTH k ltac:(lia)) as (q & NE' & LE & _). assert (X : lpos (N.of_nat (length pre + k)) = lpos l) by congruence.
    apply lpos_inj in X; [|lia|exact Hl]. lia.
  - intros Q. destruct (NTH (N.to_nat l - length pre)%nat ltac:(lia)) as (q & NE & LE & Q').
    replace (N.of_nat (length pre + (N.to_nat l - length pre))) with l in LE by lia. rewrite LE. exact Q'.
Qed.
Definition la (r : N) : N := match GetLeafIndex (Index_At (lo r)) with Ret l => l | _ => 0 end.
Lemma lpos_bound l : l <= lmax -> lpos l < W64.
Proof. intros L. destruct (lpos_nth l L) as (K & _ & B). exact B. Qed.
Lemma la_run r : r < W32 -> la r + lsf r <= lmax /\ lpos (la r) = lo r /\ forall l, l <= lmax -> (lo r <= lpos l < r <-> la r <= l < la r + lsf r).
Proof.
  intros Hr. destruct (leaf_run r Hr) as (a & T & FL & R).
  assert (E : la r = a).
  { unfold la. assert (AL : a <= lmax) by lia. destruct (lpos_nth a AL) as (K & NE & B). rewrite <- FL.
    rewrite (CalculateLeafIndex_correct K (N.to_nat a) _ NE); [apply N2Nat.id|]. rewrite FL. unfold lo. lia. }
  rewrite E. unfold lsf. destruct (N.eqb_spec (CalculateHeight r) 0) as [Z|NZ].
  - split; [lia|]. split; [exact FL|]. intros l Hl. assert (LO : lo r = r) by (unfold lo, shf; rewrite Z; change (2 ^ 0) with 1; lia). lia.
  - split; [exact T|]. split; [exact FL|]. intros l Hl. rewrite <- (R l Hl (lpos_bound l Hl)). split; [lia|]. intros Q.
    assert (lpos l <> r); [|lia]. intros X. apply NZ. apply height_zero_iff_leaf; [lia|]. 
    destruct (lpos_nth l Hl) as (K & NE & B). exists K. rewrite <- X. eapply nth_error_In. exact NE.
Qed.
Definition gone_leaf (gone : N -> bool) (l : N) : bool := gone (lpos l).
Lemma leaf_disjoint roots : chain_free roots -> disjoint_list la (fun r => la r + lsf r) roots.
Proof.
  induction roots as [|r l IH]; intros C; constructor; [lia| |apply IH, (chain_free_cons _ _ C)].
  destruct (chain_free_cons _ _ C) as (C1 & B & F). destruct C1 as (_ & B1 & _). rewrite Forall_forall in *. intros x I. specialize (F x I). specialize (B1 x I).
  destruct (la_run r ltac:(lia)) as (T & FL & R). destruct (la_run x ltac:(lia)) as (T' & FL' & R').
  assert (A1 : la r <= la x) by (apply lpos_le; [lia | lia|]; rewrite FL, FL'; unfold lo at 1; lia).
  destruct (N.lt_ge_cases (la x) (la r + lsf r)) as [L|]; [|assumption]. exfalso.
  assert (Q : lo r <= lpos (la x) < r) by (apply R; lia). rewrite FL' in Q. lia.
Qed.
Lemma gone_leaf_intervals roots gone : chain_free roots -> gone_chain roots gone -> forall n, N.of_nat n <= lmax ->
  cnt (gone_leaf gone) 0 n = sum (part la (fun r => la r + lsf r) (N.of_nat n)) roots.
Proof.
  intros C G. pose proof C as (_ & B & _). rewrite Forall_forall in B.
  set (g := fun q => existsb (within la (fun r => la r + lsf r) q) roots).
  assert (GE : forall q, q <= lmax -> gone_leaf gone q = g q).
  { intros q Q. apply eq_true_iff_eq. unfold gone_leaf, g. rewrite (G (lpos q)), existsb_exists. unfold within.
    split; intros (r & I & X); exists r; (split; [exact I|]); specialize (B r I); destruct (la_run r ltac:(lia)) as (_ & _ & R).
    - apply R in X; [|exact Q]. apply andb_true_iff. rewrite N.leb_le, N.ltb_lt. exact X.
    - apply andb_true_iff in X. rewrite N.leb_le, N.ltb_lt in X. apply R; assumption. }
  intros n L. rewrite <- (cnt_intervals la (fun r => la r + lsf r) g roots (leaf_disjoint _ C)).
  - assert (X : forall n i, i + N.of_nat n <= lmax -> cnt (gone_leaf gone) i n = cnt g i n).
    { clear L. induction n0 as [|m IH]; intros i L; cbn [cnt]; [reflexivity|]. rewrite GE by lia. rewrite IH by lia. reflexivity. }
    apply X. lia.
  - intros q. unfold g. rewrite existsb_exists. unfold within. split; intros (r & I & X); exists r; (split; [exact I|]).
    + apply andb_true_iff in X. rewrite N.leb_le, N.ltb_lt in X. exact X.
    + apply andb_true_iff. rewrite N.leb_le, N.ltb_lt. exact X.
Qed.
Lemma before_ext roots x y : (forall r, In r roots -> (r < x <-> r < y)) -> before roots x = before roots y.
Proof.
  unfold before. intros H. apply filter_ext_in. intros r I. specialize (H r I). destruct (N.ltb_spec r x), (N.ltb_spec r y); try reflexivity; lia.
Qed.
Lemma sum_part_before' roots (a b : N -> N) p x f : (forall r, In r roots -> r < x -> a r <= b r <= p /\ f r = b r - a r) ->
  (forall r, In r roots -> x <= r -> p <= a r /\ a r <= b r) -> sum (part a b p) roots = sum f (before roots x).
Proof.
  induction roots as [|r l IH]; intros H1 H2; [reflexivity|]. unfold before. cbn [sum filter].
  rewrite IH; [|intros; apply H1; [right; assumption | assumption]|intros; apply H2; [right; assumption | assumption]]. fold (before l x). unfold part.
  destruct (N.ltb_spec r x) as [L|L]; cbn [sum].
  - destruct (H1 r (or_introl eq_refl) L) as [Q E]. rewrite E. lia.
  - destruct (H2 r (or_introl eq_refl) L). lia.
Qed.
(** leaf counts at a kept leaf, and at a clean cut *)
Lemma leaf_count_kept roots gone l : chain_free roots -> gone_chain roots gone -> l < lmax -> gone (lpos l) = false ->
  cnt (gone_leaf gone) 0 (N.to_nat l) = sum lsf (before roots (lpos l + 1)).
Proof.
  intros C G L K. rewrite (gone_leaf_intervals roots gone C G) by lia. rewrite N2Nat.id.
  assert (NG : forall r, In r roots -> lo r <= lpos l < r -> False).
  { intros r I Q. assert (gone (lpos l) = true) by (apply G; exists r; split; assumption). congruence. }
  pose proof C as (_ & B & _). rewrite Forall_forall in B.
  apply sum_part_before'; intros r I Q; specialize (B r I); destruct (la_run r ltac:(lia)) as (T & FL & R); specialize (R l ltac:(lia)).
  - split; [|lia]. assert (LA : la r <= l) by (apply lpos_le; [lia | lia|]; rewrite FL; unfold lo; lia).
    destruct (N.lt_ge_cases l (la r + lsf r)) as [X|]; [|lia]. exfalso. apply (NG r I). apply R. lia.
  - split; [|lia]. destruct (N.lt_ge_cases (lpos l) (lo r)) as [X|X]; [|exfalso; apply (NG r I); lia].
    apply lpos_le; [lia | lia|]. rewrite FL. lia.
Qed.
Lemma leaf_count_clean roots gone l : chain_free roots -> gone_chain roots gone -> l < lmax -> clean roots (lpos l) ->
  cnt (gone_leaf gone) 0 (N.to_nat l) = sum lsf (before roots (lpos l)).
Proof.
  intros C G L K. rewrite (gone_leaf_intervals roots gone C G) by lia. rewrite N2Nat.id.
  pose proof C as (_ & B & _). rewrite Forall_forall in B.
  apply sum_part_before'; intros r I Q; specialize (B r I); destruct (la_run r ltac:(lia)) as (T & FL & R); specialize (R l ltac:(lia)).
  - split; [|lia]. assert (LA : la r <= l) by (apply lpos_le; [lia | lia|]; rewrite FL; unfold lo; lia).
    destruct (N.lt_ge_cases l (la r + lsf r)) as [X|]; [|lia]. assert (lo r <= lpos l < r) by (apply R; lia). lia.
  - split; [|lia]. destruct (K r I) as [X|X]; [lia|]. apply lpos_le; [lia | lia|]. rewrite FL. lia.
Qed.
Lemma P_GetAt_sim roots gone D l : chain_free roots -> gone_chain roots gone -> l < nlen D -> l < lmax -> lpos l + 1 < W32 -> gone (lpos l) = false ->
  P_GetAt (PL_Load (one_based roots)) (keep (gone_leaf gone) 0 D) (LeafIndex_At l) = GetDataAt D l.
Proof.
  intros C G L LM B K. unfold P_GetAt. change (lidx_leaf (LeafIndex_At l)) with l. fold (lpos l).
  rewrite load_leaf_shift by (try exact C; rewrite add64_small by lia; lia). rewrite add64_small by lia.
  rewrite <- (leaf_count_kept roots gone l C G LM K). pose proof (cnt_le (gone_leaf gone) (N.to_nat l) 0) as CL.
  unfold lmax in *. rewrite sub64_small by lia. unfold GetDataAt. rewrite N2Nat.inj_sub.
  rewrite keep_nth; [reflexivity | rewrite N.add_0_l, N2Nat.id; exact K | unfold nlen in L; lia].
Qed.
Lemma P_RewindData_sim roots gone D n : chain_free roots -> gone_chain roots gone -> clean roots (lpos n) -> n <= nlen D -> lpos n < W32 -> n < lmax ->
  P_RewindData (PL_Load (one_based roots)) (keep (gone_leaf gone) 0 D) n = Ret (keep (gone_leaf gone) 0 (firstn (N.to_nat n) D)).
Proof.
  intros C G K L B LM. unfold P_RewindData. fold (lpos n).
  rewrite load_leaf_shift by (try exact C; rewrite succ_pred64 by lia; lia). rewrite succ_pred64 by lia.
  rewrite <- (leaf_count_clean roots gone n C G LM K). set (g := gone_leaf gone). pose proof (cnt_le g (N.to_nat n) 0) as CL.
  unfold lmax in *. rewrite sub64_small by lia. cbv zeta.
  assert (LEN : nlen (keep g 0 (firstn (N.to_nat n) D)) = n - cnt g 0 (N.to_nat n)).
  { pose proof (keep_length g (firstn (N.to_nat n) D) 0) as KL. unfold nlen in *. rewrite firstn_length_le in KL by lia. lia. }
  assert (FE : firstn (N.to_nat (n - cnt g 0 (N.to_nat n))) (keep g 0 D) = keep g 0 (firstn (N.to_nat n) D)).
  { rewrite N2Nat.inj_sub. apply keep_firstn. unfold nlen in L. lia. }
  rewrite FE. rewrite <- FE in LEN. unfold nlen in LEN. rewrite firstn_length in LEN. unfold GetSize.
  destruct (N.leb_spec (n - cnt g 0 (N.to_nat n)) (N.of_nat (length (keep g 0 D)))); [reflexivity | lia].
Qed.
