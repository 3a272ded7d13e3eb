From Verif Require Import Base MMRIndexModel MMRIndexSpec.
Local Open Scope N_scope.

(* ------------------------------------------------------------------ *)
(** * FillOnesToRight *)

Definition covers (x y n : N) : Prop :=
  forall i, N.testbit y i = true <-> exists j, j < n /\ N.testbit x (i + j) = true.

Lemma covers_step x y n : covers x y n -> covers x (N.lor y (N.shiftr y n)) (2 * n).
Proof.
  intros H i. rewrite N.lor_spec, N.shiftr_spec by lia.
  rewrite orb_true_iff, (H i), (H (i + n)). split.
  - intros [[j [Hj Hb]]|[j [Hj Hb]]].
    + exists j; split; [lia|assumption].
    + exists (n + j); split; [lia|]. rewrite N.add_assoc; assumption.
  - intros [j [Hj Hb]]. destruct (N.lt_ge_cases j n) as [Hlt|Hge].
    + left; exists j; auto.
    + right; exists (j - n); split; [lia|].
      replace (i + n + (j - n)) with (i + j) by lia. assumption.
Qed.

Lemma covers_1 x : covers x x 1.
Proof.
  intros i; split.
  - intros H; exists 0; split; [lia|]. rewrite N.add_0_r; assumption.
  - intros [j [Hj Hb]]. replace j with 0 in Hb by lia. rewrite N.add_0_r in Hb; assumption.
Qed.

Lemma size_lt_64 x : x < W64 -> N.size x <= 64.
Proof.
  intros Hx. destruct (N.eq_dec x 0) as [->|Hn]; [cbn; lia|].
  rewrite N.size_log2 by assumption.
  assert (N.log2 x < 64) by (apply N.log2_lt_pow2; [lia|rewrite pow2_64; assumption]). lia.
Qed.

Lemma FillOnes_spec x : x < W64 -> FillOnesToRight x = 2 ^ (N.size x) - 1.
Proof.
  intros Hx.
  assert (Hc : covers x (FillOnesToRight x) 64).
  { unfold FillOnesToRight.
    pose proof (covers_1 x) as H1.
    pose proof (covers_step _ _ _ H1) as H2. change (2 * 1) with 2 in H2.
    pose proof (covers_step _ _ _ H2) as H4. change (2 * 2) with 4 in H4.
    pose proof (covers_step _ _ _ H4) as H8. change (2 * 4) with 8 in H8.
    pose proof (covers_step _ _ _ H8) as H16. change (2 * 8) with 16 in H16.
    pose proof (covers_step _ _ _ H16) as H32. change (2 * 16) with 32 in H32.
    pose proof (covers_step _ _ _ H32) as H64. change (2 * 32) with 64 in H64.
    exact H64. }
  transitivity (N.ones (N.size x)).
  2:{ rewrite N.ones_equiv, N.sub_1_r. reflexivity. }
  apply N.bits_inj; intros i.
  assert (Ht : N.testbit (N.ones (N.size x)) i = (i <? N.size x)).
  { destruct (N.ltb_spec i (N.size x)) as [H|H].
    - apply N.ones_spec_low; assumption.
    - apply N.ones_spec_high; assumption. }
  rewrite Ht. apply eq_true_iff_eq. rewrite (Hc i), N.ltb_lt.
  destruct (N.eq_dec x 0) as [->|Hn].
  - split; [intros [j [_ Hb]]; rewrite N.bits_0 in Hb; discriminate|cbn; lia].
  - pose proof (size_lt_64 x Hx) as Hs.
    rewrite N.size_log2 in * by assumption. split.
    + intros [j [Hj Hb]]. destruct (N.lt_ge_cases i (N.succ (N.log2 x))) as [|Hge]; [assumption|].
      rewrite N.bits_above_log2 in Hb by lia. discriminate.
    + intros Hi. exists (N.log2 x - i). split; [lia|].
      replace (i + (N.log2 x - i)) with (N.log2 x) by lia. apply N.bit_log2; assumption.
Qed.

(* ------------------------------------------------------------------ *)
(** * Powers of two indexed by nat *)

Definition p2 (k : nat) : N := 2 ^ (N.of_nat k).

Lemma p2_0 : p2 0 = 1. Proof. reflexivity. Qed.
Lemma p2_S k : p2 (S k) = 2 * p2 k.
Proof. unfold p2. rewrite Nat2N.inj_succ, N.pow_succ_r by lia. reflexivity. Qed.
Lemma p2_pos k : 1 <= p2 k.
Proof. induction k as [|k IH]; [rewrite p2_0; lia|rewrite p2_S; lia]. Qed.
Lemma p2_64 : p2 64 = W64. Proof. reflexivity. Qed.
Lemma p2_mono a b : (a <= b)%nat -> p2 a <= p2 b.
Proof. induction 1 as [|b H IH]; [lia|]. rewrite p2_S. lia. Qed.
Lemma p2_inj_lt a b : p2 a < p2 b -> (a < b)%nat.
Proof. intros H. destruct (Nat.lt_ge_cases a b) as [|Hge]; [assumption|]. apply p2_mono in Hge. lia. Qed.
Lemma p2_gt k : N.of_nat k < p2 k.
Proof. induction k as [|k IH]; [rewrite p2_0; lia|]. rewrite p2_S. lia. Qed.

Lemma shiftr_peak k : N.shiftr (p2 (S k) - 1) 1 = p2 k - 1.
Proof. rewrite N.shiftr_div_pow2. change (2 ^ 1) with 2. rewrite p2_S. pose proof (p2_pos k). lia. Qed.

Lemma size_p2 x : x < p2 (N.to_nat (N.size x)).
Proof. unfold p2. rewrite N2Nat.id. apply N.size_gt. Qed.

Lemma Fill_p2 x : x < W64 -> exists k, (k <= 64)%nat /\ FillOnesToRight x = p2 k - 1 /\ x < p2 k
   /\ (k = O \/ p2 (pred k) <= x).
Proof.
  intros Hx. exists (N.to_nat (N.size x)). repeat split.
  - pose proof (size_lt_64 x Hx). lia.
  - rewrite FillOnes_spec by assumption. unfold p2. rewrite N2Nat.id. reflexivity.
  - apply size_p2.
  - destruct (N.eq_dec x 0) as [->|Hn]; [left; reflexivity|right].
    rewrite N.size_log2 by assumption. rewrite N2Nat.inj_succ. cbn [pred]. unfold p2. rewrite N2Nat.id.
    apply N.log2_spec; lia.
Qed.

(* ------------------------------------------------------------------ *)
(** * The numbering *)

Lemma number_next h b : snd (number h b) = b + (p2 (S h) - 1).
Proof.
  revert b. induction h as [|h IH]; intros b; cbn [number].
  - cbn [snd]. rewrite p2_S, p2_0. lia.
  - destruct (number h b) as [l b1] eqn:El. destruct (number h b1) as [r b2] eqn:Er. cbn [snd].
    pose proof (IH b) as H1. rewrite El in H1. cbn [snd] in H1.
    pose proof (IH b1) as H2. rewrite Er in H2. cbn [snd] in H2.
    rewrite (p2_S (S h)). pose proof (p2_pos (S h)). lia.
Qed.

Lemma number_S h b :
  fst (number (S h) b) =
    PNode (b + 2 * (p2 (S h) - 1)) (fst (number h b)) (fst (number h (b + (p2 (S h) - 1)))).
Proof.
  cbn [number]. pose proof (number_next h b) as H1.
  destruct (number h b) as [l b1]. cbn [snd] in H1. subst b1.
  pose proof (number_next h (b + (p2 (S h) - 1))) as H2.
  destruct (number h (b + (p2 (S h) - 1))) as [r b2]. cbn [snd] in H2. subst b2.
  cbn [fst]. f_equal. lia.
Qed.

Lemma number_height h b : tree_height (fst (number h b)) = h.
Proof.
  revert b; induction h as [|h IH]; intros b; [reflexivity|].
  rewrite number_S. cbn [tree_height]. rewrite IH. reflexivity.
Qed.

Lemma number_root h b : root_pos (fst (number h b)) = b + 2 * (p2 h - 1).
Proof.
  destruct h as [|h].
  - cbn [number fst root_pos]. rewrite p2_0. lia.
  - rewrite number_S. reflexivity.
Qed.

(** A subtree of a numbered tree is itself a numbered tree. *)
Lemma subtree_number h b s :
  subtree s (fst (number h b)) ->
  exists b', s = fst (number (tree_height s) b') /\ b <= b' /\
             root_pos s <= root_pos (fst (number h b)) /\ (tree_height s <= h)%nat.
Proof.
  revert b; induction h as [|h IH]; intros b Hs.
  - cbn [number fst] in Hs. inversion Hs; subst. exists b. cbn. repeat split; lia.
  - rewrite number_S in Hs. inversion Hs as [He|p l r Hl|p l r Hr]; subst.
    + exists b. rewrite <- number_S. rewrite number_height. repeat split; lia.
    + destruct (IH _ Hl) as [b' [H1 [H2 [H3 H4]]]]. exists b'. repeat split; auto; try lia.
      rewrite number_root in *. rewrite p2_S. pose proof (p2_pos h). lia.
    + destruct (IH _ Hr) as [b' [H1 [H2 [H3 H4]]]]. exists b'. repeat split; auto; try lia.
      rewrite number_root in *. rewrite p2_S in *. pose proof (p2_pos h). lia.
Qed.

(* ------------------------------------------------------------------ *)
(** * Height *)

Definition hpeel (k : nat) (p : N) : N := CalculateHeight_loop 64 (p2 k - 1) p.

Lemma hloop_fuel k fuel p : (k <= fuel)%nat ->
  CalculateHeight_loop fuel (p2 k - 1) p = CalculateHeight_loop k (p2 k - 1) p.
Proof.
  revert fuel p; induction k as [|k IH]; intros fuel p Hf.
  - rewrite p2_0. destruct fuel; reflexivity.
  - destruct fuel as [|fuel]; [lia|]. cbn [CalculateHeight_loop].
    assert (Hz : (p2 (S k) - 1 =? 0) = false) by (rewrite p2_S; pose proof (p2_pos k); lia).
    rewrite Hz, shiftr_peak. apply IH. lia.
Qed.

Lemma hloop_S k p :
  CalculateHeight_loop (S k) (p2 (S k) - 1) p =
  CalculateHeight_loop k (p2 k - 1) (if p2 (S k) - 1 <=? p then p - (p2 (S k) - 1) else p).
Proof.
  cbn [CalculateHeight_loop].
  assert (Hz : (p2 (S k) - 1 =? 0) = false) by (rewrite p2_S; pose proof (p2_pos k); lia).
  rewrite Hz, shiftr_peak. reflexivity.
Qed.

Lemma hloop_over j c : CalculateHeight_loop j (p2 j - 1) (p2 (S j) + c) = c + N.of_nat j + 2.
Proof.
  revert c; induction j as [|j IH]; intros c.
  - cbn [CalculateHeight_loop]. rewrite p2_S, p2_0. lia.
  - rewrite hloop_S.
    assert (Hle : (p2 (S j) - 1 <=? p2 (S (S j)) + c) = true) by (rewrite (p2_S (S j)); lia).
    rewrite Hle.
    replace (p2 (S (S j)) + c - (p2 (S j) - 1)) with (p2 (S j) + (c + 1))
      by (rewrite (p2_S (S j)); pose proof (p2_pos (S j)); lia).
    rewrite IH. lia.
Qed.

Lemma hloop_subtree k b s :
  subtree s (fst (number k b)) ->
  CalculateHeight_loop k (p2 k - 1) (root_pos s - b) = N.of_nat (tree_height s).
Proof.
  revert b s; induction k as [|k IH]; intros b s Hs.
  - cbn [number fst] in Hs. inversion Hs; subst. cbn [root_pos tree_height CalculateHeight_loop]. lia.
  - rewrite hloop_S. rewrite number_S in Hs. inversion Hs as [He|p l r Hl|p l r Hr]; subst.
    + cbn [root_pos tree_height]. rewrite number_height.
      replace (b + 2 * (p2 (S k) - 1) - b) with (2 * (p2 (S k) - 1)) by lia.
      assert (Hle : (p2 (S k) - 1 <=? 2 * (p2 (S k) - 1)) = true) by lia. rewrite Hle.
      replace (2 * (p2 (S k) - 1) - (p2 (S k) - 1)) with (p2 (S k) - 1) by lia.
      destruct k as [|k].
      * cbn [CalculateHeight_loop]. rewrite p2_S, p2_0. lia.
      * rewrite hloop_S. assert (Hle2 : (p2 (S k) - 1 <=? p2 (S (S k)) - 1) = true)
          by (rewrite (p2_S (S k)); lia). rewrite Hle2.
        replace (p2 (S (S k)) - 1 - (p2 (S k) - 1)) with (p2 (S k) + 0)
          by (rewrite (p2_S (S k)); pose proof (p2_pos (S k)); lia).
        rewrite hloop_over. lia.
    + destruct (subtree_number _ _ _ Hl) as [b' [_ [Hb [Hr _]]]].
      rewrite number_root in Hr.
      assert (Hlt : (p2 (S k) - 1 <=? root_pos s - b) = false)
        by (rewrite p2_S; pose proof (p2_pos k); lia).
      rewrite Hlt. apply IH. assumption.
    + destruct (subtree_number _ _ _ Hr) as [b' [Hs' [Hb [_ _]]]].
      assert (Hge : b' <= root_pos s) by (rewrite Hs', number_root; lia).
      assert (Hle : (p2 (S k) - 1 <=? root_pos s - b) = true) by lia.
      rewrite Hle.
      replace (root_pos s - b - (p2 (S k) - 1)) with (root_pos s - (b + (p2 (S k) - 1))) by lia.
      apply IH. assumption.
Qed.

Lemma subtree_trans s t u : subtree s t -> subtree t u -> subtree s u.
Proof. intros H1 H2; induction H2; [assumption|constructor 2|constructor 3]; auto. Qed.

Lemma big_tree_mono H H' : (H <= H')%nat -> subtree (big_tree H) (big_tree H').
Proof.
  induction 1 as [|H' HH IH]; [constructor|].
  apply subtree_trans with (big_tree H'); [assumption|].
  unfold big_tree. rewrite number_S. apply sub_left. apply sub_here.
Qed.

(** every position is the root of a unique-height subtree *)
Lemma position_in_tree h b p : b <= p -> p < b + (p2 (S h) - 1) ->
  exists s, subtree s (fst (number h b)) /\ root_pos s = p.
Proof.
  revert b; induction h as [|h IH]; intros b Hb Hp.
  - exists (PLeaf b). cbn [number fst]. split; [constructor|]. cbn. rewrite p2_S, p2_0 in Hp. lia.
  - rewrite number_S. rewrite (p2_S (S h)) in Hp.
    destruct (N.lt_ge_cases p (b + (p2 (S h) - 1))) as [H1|H1].
    + destruct (IH b Hb H1) as [s [Hs Hr]]. exists s; split; [apply sub_left; assumption|assumption].
    + destruct (N.lt_ge_cases p (b + (p2 (S h) - 1) + (p2 (S h) - 1))) as [H2|H2].
      * destruct (IH _ H1 H2) as [s [Hs Hr]]. exists s; split; [apply sub_right; assumption|assumption].
      * eexists; split; [apply sub_here|]. cbn [root_pos]. lia.
Qed.

Lemma height_of_subtree H s :
  subtree s (big_tree H) -> root_pos s < W64 ->
  CalculateHeight (root_pos s) = N.of_nat (tree_height s).
Proof.
  intros Hs Hlt. unfold CalculateHeight.
  destruct (Fill_p2 _ Hlt) as [k [Hk [Hf [Hpk _]]]]. rewrite Hf.
  rewrite hloop_fuel by assumption.
  pose (m := Nat.max H (S k)).
  assert (Hsm : subtree s (big_tree m)).
  { eapply subtree_trans; [exact Hs|]. apply big_tree_mono. lia. }
  pose proof (hloop_subtree m 0 s Hsm) as Hm. rewrite N.sub_0_r in Hm.
  assert (Hin : exists s', subtree s' (big_tree k) /\ root_pos s' = root_pos s).
  { apply position_in_tree; [lia|]. rewrite p2_S. pose proof (p2_pos k). lia. }
  destruct Hin as [s' [Hs' Hr']].
  pose proof (hloop_subtree k 0 s' Hs') as Hk'. rewrite N.sub_0_r, Hr' in Hk'.
  assert (Hsm' : subtree s' (big_tree m)).
  { eapply subtree_trans; [exact Hs'|]. apply big_tree_mono. lia. }
  pose proof (hloop_subtree m 0 s' Hsm') as Hm'. rewrite N.sub_0_r, Hr' in Hm'. congruence.
Qed.

Lemma position_in_big_tree p : p < W64 ->
  exists H s, subtree s (big_tree H) /\ root_pos s = p.
Proof.
  intros Hp. exists 64%nat. apply position_in_tree; [lia|]. rewrite p2_S, p2_64. lia.
Qed.

Lemma subtree_height_unique H H' s s' :
  subtree s (big_tree H) -> subtree s' (big_tree H') -> root_pos s = root_pos s' ->
  tree_height s = tree_height s'.
Proof.
  intros Hs Hs' He. pose (m := Nat.max H H').
  assert (A : subtree s (big_tree m)) by (eapply subtree_trans; [exact Hs|apply big_tree_mono; lia]).
  assert (B : subtree s' (big_tree m)) by (eapply subtree_trans; [exact Hs'|apply big_tree_mono; lia]).
  pose proof (hloop_subtree m 0 s A) as E1. pose proof (hloop_subtree m 0 s' B) as E2.
  rewrite He in E1. rewrite E1 in E2. lia.
Qed.

(** height of a 64-bit tree *)
Lemma subtree_height_bound H s : subtree s (big_tree H) -> root_pos s < W64 -> (tree_height s < 64)%nat.
Proof.
  intros Hs Hlt. destruct (subtree_number _ _ _ Hs) as [b' [He [_ [_ _]]]].
  rewrite He, number_root in Hlt. apply p2_inj_lt. rewrite p2_64.
  pose proof (p2_pos (tree_height s)). remember (p2 (tree_height s)) as q.
  destruct (N.le_gt_cases q (W64 / 2)) as [Hle|Hgt]; [|lia].
  cbn in Hle. lia.
Qed.

Lemma node_shape H p l r :
  subtree (PNode p l r) (big_tree H) ->
  exists b h, l = fst (number h b) /\ r = fst (number h (b + (p2 (S h) - 1))) /\
              p = b + 2 * (p2 (S h) - 1) /\ tree_height l = h.
Proof.
  intros Hs. destruct (subtree_number _ _ _ Hs) as [b' [He [_ [_ _]]]].
  cbn [tree_height] in He. rewrite number_S in He. inversion He as [[H1 H2 H3]].
  exists b', (tree_height l). rewrite <- H2. repeat split; auto.
Qed.

Lemma shl1_64_p2 h : (h < 64)%nat -> shl1_64 (N.of_nat h) = Ret (p2 h).
Proof.
  intros Hh. unfold shl1_64.
  assert (Hl : (N.of_nat h <? 64) = true) by lia. rewrite Hl.
  rewrite N.shiftl_1_l. reflexivity.
Qed.

Lemma children_in_tree H p l r :
  subtree (PNode p l r) (big_tree H) -> subtree l (big_tree H) /\ subtree r (big_tree H).
Proof.
  intros Hs; split; (eapply subtree_trans; [|exact Hs]);
   [apply sub_left|apply sub_right]; apply sub_here.
Qed.

(** the first leaf of a numbered tree *)
Lemma first_leaf h b : subtree (PLeaf b) (fst (number h b)).
Proof.
  induction h as [|h IH]; [cbn; constructor|]. rewrite number_S. apply sub_left. exact IH.
Qed.

Definition index_of (s : ptree) : Index := mkIndex (root_pos s) (N.of_nat (tree_height s)).

Lemma Index_At_subtree H s : subtree s (big_tree H) -> root_pos s < W64 ->
  Index_At (root_pos s) = index_of s.
Proof. intros Hs Hl. unfold Index_At, index_of. rewrite (height_of_subtree H s Hs Hl). reflexivity. Qed.

Lemma nav_correct H p l r :
  subtree (PNode p l r) (big_tree H) -> p < W64 ->
  GetLeftChild (Index_At p) = Ret (Index_At (root_pos l)) /\
  GetRightChild (Index_At p) = Ret (Index_At (root_pos r)) /\
  GetParent (Index_At (root_pos l)) = Ret (Index_At p) /\
  GetParent (Index_At (root_pos r)) = Ret (Index_At p) /\
  GetSibling (Index_At (root_pos l)) = Ret (Index_At (root_pos r)) /\
  GetSibling (Index_At (root_pos r)) = Ret (Index_At (root_pos l)).
Proof.
  intros Hs Hp.
  destruct (children_in_tree _ _ _ _ Hs) as [Hsl Hsr].
  destruct (node_shape _ _ _ _ Hs) as [b [h [Hl [Hr [Hpp Hh]]]]].
  assert (Hrl : root_pos l = b + 2 * (p2 h - 1)) by (rewrite Hl; apply number_root).
  assert (Hrr : root_pos r = b + (p2 (S h) - 1) + 2 * (p2 h - 1)) by (rewrite Hr; apply number_root).
  pose proof (p2_pos h) as Hpos. pose proof (p2_S h) as HS.
  assert (Hh63 : (S h < 64)%nat).
  { pose proof (subtree_height_bound H (PNode p l r) Hs Hp) as Hb. cbn [tree_height] in Hb. lia. }
  pose proof (p2_mono (S h) 63 ltac:(lia)) as Hm63.
  assert (E63 : p2 63 = 9223372036854775808) by reflexivity. rewrite E63 in Hm63.
  assert (Hlr : tree_height r = h) by (rewrite Hr; apply number_height).
  pose proof (Index_At_subtree H _ Hs Hp) as Ip. cbn [root_pos] in Ip.
  assert (Hll : root_pos l < W64) by lia. assert (Hrlt : root_pos r < W64) by lia.
  pose proof (Index_At_subtree H _ Hsl Hll) as Il.
  pose proof (Index_At_subtree H _ Hsr Hrlt) as Ir.
  rewrite Ip, Il, Ir. unfold index_of. cbn [tree_height root_pos]. rewrite Hh, Hlr.
  (* heights of successors *)
  assert (HnextR : CalculateHeight (add64 (root_pos r) 1) = N.of_nat (S h)).
  { rewrite add64_small by lia. replace (root_pos r + 1) with p by lia.
    unfold Index_At in Ip. inversion Ip as [E]. rewrite E. cbn [tree_height]. rewrite Hh. reflexivity. }
  assert (HnextL : CalculateHeight (add64 (root_pos l) 1) = 0).
  { rewrite add64_small by lia.
    assert (Hfl : subtree (PLeaf (root_pos l + 1)) (big_tree H)).
    { eapply subtree_trans; [|exact Hsr]. rewrite Hr.
      replace (root_pos l + 1) with (b + (p2 (S h) - 1)) by lia. apply first_leaf. }
    pose proof (height_of_subtree H _ Hfl) as E. cbn [root_pos tree_height] in E. apply E. lia. }
  unfold GetLeftChild, GetRightChild, GetParent, GetSibling. cbn [idx_height idx_position].
  assert (Ez : (N.of_nat (S h) =? 0) = false) by lia. rewrite Ez.
  assert (Ea : add64 (N.of_nat h) 1 = N.of_nat (S h)).
  { rewrite add64_small; lia. }
  rewrite HnextL, HnextR, Ea.
  assert (E0 : (0 =? N.of_nat (S h)) = false) by lia. rewrite E0, N.eqb_refl.
  rewrite (shl1_64_p2 (S h)) by lia. cbn [obind].
  repeat split; f_equal; f_equal; try lia.
  - rewrite sub64_small; lia.
  - rewrite sub64_small; lia.
  - rewrite add64_small; lia.
  - rewrite add64_small; lia.
  - rewrite add64_small by lia. rewrite sub64_small; lia.
  - rewrite add64_small by lia. rewrite sub64_small; lia.
Qed.

(* ------------------------------------------------------------------ *)
(** * Leaves *)

Lemma leaf_positions_length h b : N.of_nat (length (leaf_positions (fst (number h b)))) = p2 h.
Proof.
  revert b; induction h as [|h IH]; intros b; [reflexivity|].
  rewrite number_S. cbn [leaf_positions]. rewrite app_length. pose proof (p2_S h).
  pose proof (IH b). pose proof (IH (b + (p2 (S h) - 1))). lia.
Qed.

(** abstract population count *)
Fixpoint popc (k : nat) (n : N) : N :=
  match k with O => 0 | S k' => n mod 2 + popc k' (n / 2) end.

Lemma popc_bound k n : popc k n <= N.of_nat k.
Proof. revert n; induction k as [|k IH]; intros n; cbn [popc]; [lia|]. specialize (IH (n / 2)). lia. Qed.

Lemma popc_0 k : popc k 0 = 0.
Proof. induction k as [|k IH]; cbn [popc]; [reflexivity|]. change (0 / 2) with 0. rewrite IH. reflexivity. Qed.

Lemma CountBitsSet_loop_popc k n c : n < p2 k -> c + N.of_nat k < 256 ->
  CountBitsSet_loop k n c = c + popc k n.
Proof.
  revert n c; induction k as [|k IH]; intros n c Hn Hc; cbn [CountBitsSet_loop popc]; [lia|].
  destruct (N.eqb_spec n 0) as [->|Hz].
  - change (0 / 2) with 0. rewrite popc_0. change (0 mod 2) with 0. lia.
  - rewrite N.shiftr_div_pow2. change (2 ^ 1) with 2.
    change 1 with (N.ones 1) at 1. rewrite N.land_ones. change (2 ^ 1) with 2.
    assert (Hm : (c + n mod 2) mod 256 = c + n mod 2) by lia.
    rewrite Hm. rewrite p2_S in Hn. rewrite IH; lia.
Qed.

Lemma CountBitsSet_popc n : n < W64 -> CountBitsSet n = popc 64 n.
Proof.
  intros Hn. unfold CountBitsSet. rewrite CountBitsSet_loop_popc; [lia|rewrite p2_64; assumption|cbn; lia].
Qed.

Lemma popc_more k n : n < p2 k -> popc (S k) n = popc k n.
Proof.
  revert n; induction k as [|k IH]; intros n Hn.
  - rewrite p2_0 in Hn. replace n with 0 by lia. reflexivity.
  - change (popc (S (S k)) n) with (n mod 2 + popc (S k) (n / 2)).
    change (popc (S k) n) with (n mod 2 + popc k (n / 2)).
    rewrite IH; [reflexivity|]. rewrite p2_S in Hn. lia.
Qed.

Lemma popc_top k n : n < p2 k -> popc (S k) (p2 k + n) = 1 + popc k n.
Proof.
  revert n; induction k as [|k IH]; intros n Hn.
  - rewrite p2_0 in *. replace n with 0 by lia. reflexivity.
  - change (popc (S (S k)) (p2 (S k) + n))
      with ((p2 (S k) + n) mod 2 + popc (S k) ((p2 (S k) + n) / 2)).
    change (popc (S k) n) with (n mod 2 + popc k (n / 2)).
    rewrite p2_S in *.
    replace ((2 * p2 k + n) / 2) with (p2 k + n / 2) by lia.
    rewrite IH by lia. lia.
Qed.

Lemma popc_mono_fuel k m n : n < p2 k -> (k <= m)%nat -> popc m n = popc k n.
Proof.
  intros Hn Hkm. induction Hkm as [|m Hkm IH]; [reflexivity|].
  rewrite popc_more; [exact IH|]. pose proof (p2_mono k m Hkm). lia.
Qed.

Lemma popc_le_double k n : n < p2 k -> popc k n <= 2 * n /\ popc k n <= n.
Proof.
  revert n; induction k as [|k IH]; intros n Hn; cbn [popc]; [rewrite p2_0 in Hn; lia|].
  rewrite p2_S in Hn. destruct (IH (n / 2)) as [H1 H2]; [lia|]. lia.
Qed.

Lemma nth_error_leaf h b l :
  N.of_nat l < p2 h ->
  nth_error (leaf_positions (fst (number h b))) l = Some (b + (2 * N.of_nat l - popc h (N.of_nat l))).
Proof.
  revert b l; induction h as [|h IH]; intros b l Hl.
  - rewrite p2_0 in Hl. replace l with O by lia. cbn. f_equal. lia.
  - rewrite number_S. cbn [leaf_positions]. rewrite p2_S in Hl.
    pose proof (leaf_positions_length h b) as HL.
    destruct (N.lt_ge_cases (N.of_nat l) (p2 h)) as [Hlt|Hge].
    + rewrite nth_error_app1 by lia.
      rewrite IH by assumption. do 2 f_equal. rewrite popc_more by lia. reflexivity.
    + rewrite nth_error_app2 by lia.
      rewrite IH by lia. f_equal.
      remember (l - length (leaf_positions (fst (number h b))))%nat as l'.
      assert (E : N.of_nat l = p2 h + N.of_nat l') by lia.
      rewrite E, popc_top by lia.
      destruct (popc_le_double h (N.of_nat l')) as [Hd _]; [lia|].
      rewrite p2_S. pose proof (p2_pos h). lia.
Qed.

Lemma nth_error_leaf_inv h b l p :
  nth_error (leaf_positions (fst (number h b))) l = Some p ->
  N.of_nat l < p2 h /\ p = b + (2 * N.of_nat l - popc h (N.of_nat l)).
Proof.
  intros Hn.
  assert (Hl : N.of_nat l < p2 h).
  { rewrite <- (leaf_positions_length h b).
    assert (l < length (leaf_positions (fst (number h b))))%nat by (apply nth_error_Some; congruence). lia. }
  split; [assumption|]. rewrite nth_error_leaf in Hn by assumption. congruence.
Qed.

Lemma popc_any a b n : n < p2 a -> n < p2 b -> popc a n = popc b n.
Proof.
  intros Ha Hb. destruct (Nat.le_ge_cases a b) as [Hle|Hge].
  - symmetry. apply popc_mono_fuel; assumption.
  - apply popc_mono_fuel; assumption.
Qed.

Lemma LeafIndex_At_correct H l p :
  nth_error (leaf_positions (big_tree H)) l = Some p -> p < W64 ->
  LeafIndex_At (N.of_nat l) = mkLeafIndex (N.of_nat l) p.
Proof.
  intros Hn Hp. destruct (nth_error_leaf_inv _ _ _ _ Hn) as [Hlp E].
  destruct (popc_le_double H (N.of_nat l) Hlp) as [_ Hd].
  assert (Hl64 : N.of_nat l < p2 64) by (rewrite p2_64; lia).
  unfold LeafIndex_At. f_equal. rewrite CountBitsSet_popc by (rewrite p2_64 in Hl64; assumption).
  rewrite (popc_any 64 H) by assumption. pose proof (popc_bound 64 (N.of_nat l)) as Hb.
  rewrite (popc_any 64 H) in Hb by assumption. remember (popc H (N.of_nat l)) as q.
  remember (N.of_nat l) as n. clear -Hd Hp E Hb. change (N.of_nat 64) with 64 in Hb.
  unfold sub64, mul64. lia.
Qed.

(** leaf index of a position *)
Definition lpeel := CalculateLeafIndex_loop.

Lemma lloop_fuel k fuel p a : (k <= fuel)%nat ->
  CalculateLeafIndex_loop fuel (p2 k - 1) p a = CalculateLeafIndex_loop k (p2 k - 1) p a.
Proof.
  revert fuel p a; induction k as [|k IH]; intros fuel p a Hf.
  - rewrite p2_0. destruct fuel; reflexivity.
  - destruct fuel as [|fuel]; [lia|]. cbn [CalculateLeafIndex_loop].
    assert (Hz : (p2 (S k) - 1 =? 0) = false) by (rewrite p2_S; pose proof (p2_pos k); lia).
    rewrite Hz, shiftr_peak. destruct (_ <=? p); apply IH; lia.
Qed.

Lemma lloop_unfold f peakSize numLeft leafIndex :
  CalculateLeafIndex_loop (S f) peakSize numLeft leafIndex =
  if peakSize =? 0 then leafIndex
  else if peakSize <=? numLeft
       then CalculateLeafIndex_loop f (N.shiftr peakSize 1) (numLeft - peakSize)
              (add64 leafIndex (add64 peakSize 1 / 2))
       else CalculateLeafIndex_loop f (N.shiftr peakSize 1) numLeft leafIndex.
Proof. reflexivity. Qed.

Lemma lloop_S k p a : p2 (S k) < W64 ->
  CalculateLeafIndex_loop (S k) (p2 (S k) - 1) p a =
  if p2 (S k) - 1 <=? p
  then CalculateLeafIndex_loop k (p2 k - 1) (p - (p2 (S k) - 1)) (add64 a (p2 k))
  else CalculateLeafIndex_loop k (p2 k - 1) p a.
Proof.
  intros Hlt. cbn [CalculateLeafIndex_loop].
  assert (Hz : (p2 (S k) - 1 =? 0) = false) by (rewrite p2_S; pose proof (p2_pos k); lia).
  rewrite Hz, shiftr_peak.
  assert (E : add64 (p2 (S k) - 1) 1 / 2 = p2 k).
  { pose proof (p2_pos k). rewrite add64_small by (rewrite p2_S in *; lia). rewrite p2_S. lia. }
  rewrite E. reflexivity.
Qed.

Lemma lloop_leaf k b l p a :
  nth_error (leaf_positions (fst (number k b))) l = Some p -> a + p2 k < W64 ->
  CalculateLeafIndex_loop k (p2 k - 1) (p - b) a = a + N.of_nat l.
Proof.
  revert b l p a; induction k as [|k IH]; intros b l p a Hn Ha.
  - cbn [number fst leaf_positions] in Hn. destruct l as [|l]; cbn [nth_error] in Hn.
    + cbn [CalculateLeafIndex_loop]. lia.
    + destruct l; discriminate.
  - pose proof (p2_pos k) as Hpos. pose proof (p2_S k) as HS.
    destruct (nth_error_leaf_inv _ _ _ _ Hn) as [Hl _].
    rewrite lloop_S by lia.
    rewrite number_S in Hn. cbn [leaf_positions] in Hn.
    pose proof (leaf_positions_length k b) as HL.
    destruct (N.lt_ge_cases (N.of_nat l) (p2 k)) as [Hlt|Hge].
    + rewrite nth_error_app1 in Hn by lia.
      destruct (nth_error_leaf_inv _ _ _ _ Hn) as [_ Ep].
      assert (Hf : (p2 (S k) - 1 <=? p - b) = false) by lia.
      rewrite Hf. apply IH; [assumption|lia].
    + rewrite nth_error_app2 in Hn by lia.
      destruct (nth_error_leaf_inv _ _ _ _ Hn) as [_ Ep].
      assert (Hf : (p2 (S k) - 1 <=? p - b) = true) by lia.
      rewrite Hf.
      replace (p - b - (p2 (S k) - 1)) with (p - (b + (p2 (S k) - 1))) by lia.
      rewrite (IH _ _ _ _ Hn) by (rewrite add64_small; lia).
      rewrite add64_small by lia. lia.
Qed.

Lemma lloop_leaf_big k l p :
  nth_error (leaf_positions (big_tree k)) l = Some p -> p2 k < W64 ->
  CalculateLeafIndex_loop k (p2 k - 1) p 0 = N.of_nat l.
Proof.
  intros Hn Hk. pose proof (lloop_leaf k 0 l p 0 Hn ltac:(lia)) as E.
  rewrite N.sub_0_r in E. rewrite E. lia.
Qed.

Lemma leaf_positions_subtree h b p : In p (leaf_positions (fst (number h b))) -> subtree (PLeaf p) (fst (number h b)).
Proof.
  revert b; induction h as [|h IH]; intros b Hin.
  - cbn in Hin. destruct Hin as [->|[]]. constructor.
  - rewrite number_S in *. cbn [leaf_positions] in Hin. apply in_app_or in Hin.
    destruct Hin as [Hin|Hin]; [apply sub_left|apply sub_right]; apply IH; assumption.
Qed.

Lemma subtree_leaf_positions t p : subtree (PLeaf p) t -> In p (leaf_positions t).
Proof. intros H; induction H; cbn [leaf_positions]; [left; reflexivity|apply in_or_app; auto|apply in_or_app; auto]. Qed.

Lemma p2_le_63 k : p2 k < W64 -> (k < 64)%nat.
Proof. intros H. apply p2_inj_lt. rewrite p2_64. assumption. Qed.

Lemma CalculateLeafIndex_correct H l p :
  nth_error (leaf_positions (big_tree H)) l = Some p -> p < W64 - 1 ->
  GetLeafIndex (Index_At p) = Ret (N.of_nat l).
Proof.
  intros Hn Hp.
  assert (Hs : subtree (PLeaf p) (big_tree H)).
  { apply leaf_positions_subtree. eapply nth_error_In. exact Hn. }
  unfold GetLeafIndex, IsLeaf, Index_At. cbn [idx_height idx_position].
  pose proof (height_of_subtree H _ Hs) as Hh. cbn [root_pos tree_height] in Hh. rewrite Hh by lia.
  change (N.of_nat 0 =? 0) with true. cbn [obind]. f_equal.
  unfold CalculateLeafIndex.
  assert (HpW : p < W64) by lia.
  destruct (Fill_p2 p HpW) as [k [Hk [Hf [Hpk Hlow]]]]. rewrite Hf.
  rewrite lloop_fuel by assumption.
  destruct (nth_error_leaf_inv _ _ _ _ Hn) as [Hl Ep]. rewrite N.add_0_l in Ep.
  destruct (popc_le_double H (N.of_nat l)) as [_ Hd]; [assumption|].
  assert (Hmk : forall m, N.of_nat l < p2 m -> nth_error (leaf_positions (big_tree m)) l = Some p).
  { intros m Hm. unfold big_tree. rewrite nth_error_leaf by assumption. f_equal.
    rewrite Ep, N.add_0_l. f_equal. apply popc_any; assumption. }
  destruct (Nat.eq_dec k 64) as [->|Hk64].
  - rewrite (lloop_unfold 63).
    assert (Hz : (p2 64 - 1 =? 0) = false) by reflexivity. rewrite Hz.
    assert (Hnl : (p2 64 - 1 <=? p) = false) by (rewrite p2_64; lia). rewrite Hnl.
    rewrite shiftr_peak.
    assert (Hl63 : N.of_nat l < p2 63).
    { destruct (N.lt_ge_cases (N.of_nat l) (p2 63)) as [|Hge]; [assumption|exfalso].
      assert (Hl2 : N.of_nat l < p2 64) by (rewrite p2_64; lia).
      assert (Hr : N.of_nat l - p2 63 < p2 63) by (rewrite (p2_S 63) in Hl2; lia).
      assert (Hpp : popc H (N.of_nat l) = 1 + popc 63 (N.of_nat l - p2 63)).
      { rewrite (popc_any H 64) by assumption. rewrite <- popc_top by assumption. f_equal. lia. }
      destruct (popc_le_double 63 (N.of_nat l - p2 63) Hr) as [_ Hd'].
      change (p2 63) with 9223372036854775808 in *. lia. }
    apply lloop_leaf_big; [exact (Hmk 63%nat Hl63)|reflexivity].
  - assert (Hlk : N.of_nat l < p2 k).
    { pose proof (p2_pos k). lia. }
    apply lloop_leaf_big; [exact (Hmk k Hlk)|]. pose proof (p2_mono k 63 ltac:(lia)).
    change (p2 63) with 9223372036854775808 in *. lia.
Qed.

(* ------------------------------------------------------------------ *)
(** * Peaks *)

Lemma forest_cons b h hs :
  forest b (h :: hs) =
  (fst (number h b) :: fst (forest (b + (p2 (S h) - 1)) hs), snd (forest (b + (p2 (S h) - 1)) hs)).
Proof.
  cbn [forest]. pose proof (number_next h b) as Hn. destruct (number h b) as [t b1].
  cbn [snd fst] in *. subst b1. destruct (forest _ hs). reflexivity.
Qed.

Fixpoint total (hs : list nat) : N :=
  match hs with [] => 0 | h :: hs' => (p2 (S h) - 1) + total hs' end.

Lemma forest_total b hs : snd (forest b hs) = b + total hs.
Proof.
  revert b; induction hs as [|h hs IH]; intros b; [cbn; lia|].
  rewrite forest_cons. cbn [snd total]. rewrite IH. lia.
Qed.

Lemma total_bound k hs : strictly_decreasing hs -> (match hs with [] => True | h :: _ => (h < k)%nat end) ->
  total hs + 1 <= p2 (S k) - 1.
Proof.
  revert hs; induction k as [|k IH]; intros hs Hd Hh.
  - destruct hs as [|h hs]; [cbn; rewrite p2_S, p2_0; lia|lia].
  - destruct hs as [|h hs]; [cbn [total]; rewrite !p2_S; pose proof (p2_pos k); lia|].
    cbn [strictly_decreasing] in Hd. destruct Hd as [Hd1 Hd2].
    assert (Hk : match hs with [] => True | h' :: _ => (h' < k)%nat end).
    { destruct hs as [|h' hs']; [exact I|lia]. }
    specialize (IH hs Hd2 Hk). cbn [total].
    pose proof (p2_mono (S h) (S k) ltac:(lia)). rewrite (p2_S (S k)). lia.
Qed.

Lemma ploop_unfold f peakSize numLeft sumPrevPeaks acc :
  GetPeakIndices_loop (S f) peakSize numLeft sumPrevPeaks acc =
  if peakSize =? 0 then (acc, numLeft)
  else if peakSize <=? numLeft
       then GetPeakIndices_loop f (N.shiftr peakSize 1) (numLeft - peakSize)
              (add64 sumPrevPeaks peakSize)
              (acc ++ [sub64 (add64 sumPrevPeaks peakSize) 1])
       else GetPeakIndices_loop f (N.shiftr peakSize 1) numLeft sumPrevPeaks acc.
Proof. reflexivity. Qed.

Lemma ploop_fuel k fuel n s acc : (k <= fuel)%nat ->
  GetPeakIndices_loop fuel (p2 k - 1) n s acc = GetPeakIndices_loop k (p2 k - 1) n s acc.
Proof.
  revert fuel n s acc; induction k as [|k IH]; intros fuel n s acc Hf.
  - rewrite p2_0. destruct fuel; reflexivity.
  - destruct fuel as [|fuel]; [lia|]. rewrite !ploop_unfold.
    assert (Hz : (p2 (S k) - 1 =? 0) = false) by (rewrite p2_S; pose proof (p2_pos k); lia).
    rewrite Hz, shiftr_peak. destruct (_ <=? n); apply IH; lia.
Qed.

Lemma ploop_S k n s acc : s + n < W64 ->
  GetPeakIndices_loop (S k) (p2 (S k) - 1) n s acc =
  if p2 (S k) - 1 <=? n
  then GetPeakIndices_loop k (p2 k - 1) (n - (p2 (S k) - 1)) (s + (p2 (S k) - 1))
         (acc ++ [root_pos (fst (number k s))])
  else GetPeakIndices_loop k (p2 k - 1) n s acc.
Proof.
  intros Hlt. rewrite ploop_unfold.
  assert (Hz : (p2 (S k) - 1 =? 0) = false) by (rewrite p2_S; pose proof (p2_pos k); lia).
  rewrite Hz, shiftr_peak. destruct (N.leb_spec (p2 (S k) - 1) n) as [Hle|Hgt]; [|reflexivity].
  rewrite add64_small by lia. f_equal. f_equal. f_equal.
  rewrite number_root. rewrite p2_S in *. pose proof (p2_pos k). rewrite sub64_small; lia.
Qed.

Lemma ploop_complete k hs s acc :
  strictly_decreasing hs -> (match hs with [] => True | h :: _ => (h < k)%nat end) ->
  s + total hs < W64 ->
  GetPeakIndices_loop k (p2 k - 1) (total hs) s acc = (acc ++ map root_pos (fst (forest s hs)), 0).
Proof.
  revert hs s acc; induction k as [|k IH]; intros hs s acc Hd Hh Hs.
  - destruct hs as [|h hs]; [|lia]. cbn. rewrite app_nil_r. reflexivity.
  - rewrite ploop_S by assumption. destruct hs as [|h hs].
    + cbn [total]. assert (Hf : (p2 (S k) - 1 <=? 0) = false) by (rewrite p2_S; pose proof (p2_pos k); lia).
      rewrite Hf. apply (IH [] s acc); auto.
    + destruct (Nat.eq_dec h k) as [->|Hne].
      * cbn [total]. assert (Ht : (p2 (S k) - 1 <=? p2 (S k) - 1 + total hs) = true) by lia.
        rewrite Ht. replace (p2 (S k) - 1 + total hs - (p2 (S k) - 1)) with (total hs) by lia.
        cbn [strictly_decreasing total] in *. destruct Hd as [Hd1 Hd2].
        rewrite IH; [|assumption|destruct hs; [exact I|assumption]|lia].
        rewrite forest_cons. cbn [fst map]. rewrite <- app_assoc. reflexivity.
      * assert (Hf : (p2 (S k) - 1 <=? total (h :: hs)) = false).
        { assert (Hhk : (h < k)%nat) by lia. pose proof (total_bound k (h :: hs) Hd Hhk) as HB. lia. }
        rewrite Hf. apply IH; auto. lia.
Qed.

Lemma ploop_sound k n s acc res rem :
  s + n < W64 ->
  GetPeakIndices_loop k (p2 k - 1) n s acc = (res, rem) ->
  exists hs, strictly_decreasing hs /\ (match hs with [] => True | h :: _ => (h < k)%nat end) /\
             n = total hs + rem /\ res = acc ++ map root_pos (fst (forest s hs)).
Proof.
  revert n s acc; induction k as [|k IH]; intros n s acc Hs He.
  - cbn in He. inversion He; subst. exists []. cbn. rewrite app_nil_r. repeat split; lia.
  - rewrite ploop_S in He by assumption. destruct (N.leb_spec (p2 (S k) - 1) n) as [Hle|Hgt].
    + apply IH in He; [|lia]. destruct He as [hs [H1 [H2 [H3 H4]]]].
      exists (k :: hs). repeat split.
      * destruct hs; [exact I|lia].
      * assumption.
      * lia.
      * cbn [total]. lia.
      * rewrite H4, <- app_assoc, forest_cons. reflexivity.
    + apply IH in He; [|lia]. destruct He as [hs [H1 [H2 [H3 H4]]]].
      exists hs. repeat split; auto. destruct hs; [exact I|lia].
Qed.

Lemma peaks_complete hs ts size :
  strictly_decreasing hs -> forest 0 hs = (ts, size) -> size < W64 ->
  GetPeakIndices size = map root_pos ts.
Proof.
  intros Hd Hf Hlt.
  assert (Ht : size = total hs) by (pose proof (forest_total 0 hs) as E; rewrite Hf in E; cbn [snd] in E; lia).
  unfold GetPeakIndices. destruct (N.ltb_spec 0 size) as [Hpos|Hz].
  - destruct (Fill_p2 size Hlt) as [k [Hk [HF [Hpk _]]]]. rewrite HF, ploop_fuel by assumption.
    rewrite Ht. rewrite ploop_complete; [|assumption| |lia].
    + cbn [app]. change (0 <? 0) with false. cbn iota. rewrite Hf. reflexivity.
    + destruct hs as [|h hs']; [exact I|]. cbn [total] in Ht.
      assert (Hp : p2 (S h) <= p2 k) by lia.
      destruct (Nat.lt_ge_cases h k) as [|Hge]; [assumption|].
      pose proof (p2_mono k h Hge). rewrite p2_S in Hp. pose proof (p2_pos h). lia.
  - destruct hs as [|h hs']; [cbn in Hf; inversion Hf; reflexivity|].
    cbn [total] in Ht. rewrite p2_S in Ht. pose proof (p2_pos h). lia.
Qed.

Lemma peaks_incomplete size :
  size < W64 ->
  (forall hs ts, strictly_decreasing hs -> forest 0 hs <> (ts, size)) ->
  GetPeakIndices size = [].
Proof.
  intros Hlt Hno. unfold GetPeakIndices. destruct (N.ltb_spec 0 size) as [Hpos|Hz]; [|reflexivity].
  destruct (Fill_p2 size Hlt) as [k [Hk [HF [Hpk _]]]]. rewrite HF, ploop_fuel by assumption.
  destruct (GetPeakIndices_loop k (p2 k - 1) size 0 []) as [res rem] eqn:E.
  apply ploop_sound in E; [|lia]. destruct E as [hs [H1 [H2 [H3 H4]]]].
  destruct (N.ltb_spec 0 rem) as [|Hr]; [reflexivity|]. exfalso.
  apply (Hno hs (fst (forest 0 hs)) H1).
  pose proof (forest_total 0 hs) as Ht. destruct (forest 0 hs) as [ts b]. cbn [fst snd] in *. f_equal. lia.
Qed.

(* ------------------------------------------------------------------ *)
(** * Statements used by MMRIndexProps *)

Lemma leaf_exists (n : N) : n <= 9223372036854775808 ->
  exists p, nth_error (leaf_positions (big_tree 64)) (N.to_nat n) = Some p /\ p < W64.
Proof.
  intros Hn. exists (2 * n - popc 64 n).
  assert (Hlt : n < p2 64) by (rewrite p2_64; lia).
  split.
  - unfold big_tree. rewrite nth_error_leaf by lia. rewrite N2Nat.id. f_equal.
  - destruct (N.eq_dec n 9223372036854775808) as [->|Hne]; [vm_compute; reflexivity|lia].
Qed.

Lemma leaf_position_all (n : N) : n <= 9223372036854775808 ->
  exists p, nth_error (leaf_positions (big_tree 64)) (N.to_nat n) = Some p /\ p < W64 /\
            LeafIndex_At n = mkLeafIndex n p.
Proof.
  intros Hn. destruct (leaf_exists n Hn) as [p [H1 H2]]. exists p. repeat split; auto.
  pose proof (LeafIndex_At_correct 64 _ _ H1 H2) as E. rewrite N2Nat.id in E. exact E.
Qed.

Lemma big_leaf_inv H l p : nth_error (leaf_positions (big_tree H)) l = Some p ->
  N.of_nat l < p2 H /\ p = 2 * N.of_nat l - popc H (N.of_nat l).
Proof. intros Hn. destruct (nth_error_leaf_inv _ _ _ _ Hn) as [A B]. split; [exact A|lia]. Qed.

Lemma leaf_position_increasing (n m : N) : n < m -> m <= 9223372036854775808 ->
  lidx_position (LeafIndex_At n) < lidx_position (LeafIndex_At m).
Proof.
  intros Hnm Hm.
  destruct (leaf_exists n ltac:(lia)) as [p [H1 H2]]. destruct (leaf_exists m Hm) as [q [H3 H4]].
  pose proof (LeafIndex_At_correct 64 _ _ H1 H2) as E. rewrite N2Nat.id in E.
  pose proof (LeafIndex_At_correct 64 _ _ H3 H4) as F. rewrite N2Nat.id in F.
  rewrite E, F. cbn [lidx_position].
  destruct (big_leaf_inv 64 _ _ H1) as [A B]. destruct (big_leaf_inv 64 _ _ H3) as [C D].
  rewrite N2Nat.id in *. subst p q. clear -Hnm A C.
  revert n m Hnm A C. generalize 64%nat as k. induction k as [|k IH]; intros n m Hnm A C.
  - rewrite p2_0 in *. lia.
  - cbn [popc]. rewrite p2_S in *.
    destruct (popc_le_double k (n / 2)) as [_ Hn]; [lia|].
    destruct (popc_le_double k (m / 2)) as [_ Hm]; [lia|].
    destruct (N.eq_dec (n / 2) (m / 2)) as [He|Hne].
    + rewrite He in *. lia.
    + assert (Hlt : n / 2 < m / 2) by lia. specialize (IH _ _ Hlt ltac:(lia) ltac:(lia)). lia.
Qed.

Lemma height_zero_iff_leaf p : p < W64 ->
  (CalculateHeight p = 0 <-> exists H, In p (leaf_positions (big_tree H))).
Proof.
  intros Hp. split.
  - intros Hz. destruct (position_in_big_tree p Hp) as [H [s [Hs Hr]]]. exists H.
    pose proof (height_of_subtree H s Hs) as E. rewrite Hr in E. rewrite Hz in E.
    destruct s as [q|q l r].
    + cbn in Hr. subst q. apply subtree_leaf_positions. assumption.
    + cbn [tree_height] in E. specialize (E Hp). lia.
  - intros [H Hin]. apply leaf_positions_subtree in Hin.
    pose proof (height_of_subtree H _ Hin) as E. cbn [root_pos tree_height] in E. apply E. assumption.
Qed.

(** numbering really is post-order: the positions listed in post-order are b, b+1, ... *)
Lemma positions_seq h b :
  positions (fst (number h b)) = map (fun i => b + N.of_nat i) (seq 0 (N.to_nat (p2 (S h) - 1))).
Proof.
  revert b; induction h as [|h IH]; intros b.
  - cbn [number fst positions]. change (N.to_nat (p2 1 - 1)) with 1%nat. cbn [seq map].
    rewrite N.add_0_r. reflexivity.
  - rewrite number_S. cbn [positions]. rewrite !IH.
    remember (p2 (S h) - 1) as q.
    assert (Hq : p2 (S (S h)) - 1 = q + (q + 1)) by (rewrite (p2_S (S h)); pose proof (p2_pos (S h)); lia).
    rewrite Hq, N2Nat.inj_add, seq_app, map_app. f_equal.
    rewrite N2Nat.inj_add, seq_app, map_app. f_equal.
    + rewrite Nat.add_0_l. rewrite <- (Nat.add_0_r (N.to_nat q)) at 2. generalize (N.to_nat q) at 1 3 as n.
      intros n. generalize 0%nat as z. induction n as [|n IHn]; intros z; [reflexivity|].
      cbn [seq map]. f_equal; [lia|]. rewrite IHn. rewrite Nat.add_succ_r. reflexivity.
    + change (N.to_nat 1) with 1%nat. cbn [seq map]. f_equal. lia.
Qed.
