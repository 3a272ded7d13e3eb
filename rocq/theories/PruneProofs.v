From Coq Require Import Sorted.
From Verif Require Import Base Bytes MMRIndexModel MMRIndexSpec MMRIndexProofs MMRHashModel FileModel BitmapModel BitmapProofs PruneModel PruneSpec.
Local Open Scope N_scope.
Strategy opaque [CalculateHeight].

(** * Trees and intervals *)
Lemma root_in_positions s : In (root_pos s) (positions s).
Proof. destruct s; cbn; [left; reflexivity|]. rewrite app_assoc. apply in_or_app. right. left. reflexivity. Qed.
Lemma subtree_unique H H' s s' : subtree s (big_tree H) -> subtree s' (big_tree H') -> root_pos s = root_pos s' -> s = s'.
Proof.
  intros A B E. pose proof (subtree_height_unique H H' s s' A B E) as EH.
  destruct (subtree_number _ _ _ A) as (b & E1 & _). destruct (subtree_number _ _ _ B) as (b' & E2 & _).
  rewrite E1, E2 in E. rewrite !number_root, EH in E. assert (b = b') by lia. subst b'. rewrite E1, E2, EH. reflexivity.
Qed.
Lemma positions_interval H s q : subtree s (big_tree H) ->
  (2 * (p2 (tree_height s) - 1) <= root_pos s) /\
  (In q (positions s) <-> root_pos s - 2 * (p2 (tree_height s) - 1) <= q <= root_pos s).
Proof.
  intros A. destruct (subtree_number _ _ _ A) as (b & E & _). revert E.
  generalize (tree_height s) as h. intros h ->. rewrite positions_seq, number_root. split; [lia|].
  rewrite in_map_iff. pose proof (p2_pos h) as P. pose proof (p2_S h) as PS. split.
  - intros (i & <- & I). apply in_seq in I. lia.
  - intros I. exists (N.to_nat (q - b)). split; [lia|]. apply in_seq. lia.
Qed.
Definition shf (r : N) : N := 2 * (2 ^ CalculateHeight r - 1).
Definition lo (r : N) : N := r - shf r.
Lemma shf_le r : r < W64 -> shf r <= r.
Proof.
  intros Hr. destruct (position_in_big_tree r Hr) as (H & s & A & E).
  destruct (positions_interval H s 0 A) as [I _]. pose proof (height_of_subtree H s A) as HH. rewrite E in *.
  unfold shf. rewrite HH by exact Hr. exact I.
Qed.
Lemma node_positions H s r q : subtree s (big_tree H) -> root_pos s = r -> r < W64 -> (In q (positions s) <-> lo r <= q <= r).
Proof.
  intros A E Hr. destruct (positions_interval H s q A) as [I J]. pose proof (height_of_subtree H s A) as HH. rewrite E in *.
  unfold lo, shf. rewrite HH by exact Hr. exact J.
Qed.
Lemma descendant_interval r q : r < W64 -> (descendant r q <-> lo r <= q < r).
Proof.
  intros Hr. split.
  - intros (H & s & A & E & I & N). apply (node_positions H s r q A E Hr) in I. lia.
  - intros I. destruct (position_in_big_tree r Hr) as (H & s & A & E). exists H, s. repeat split; auto; [|lia].
    apply (node_positions H s r q A E Hr). lia.
Qed.

(** * Parents *)
Lemma parent_inside s q : In q (positions s) -> q <> root_pos s ->
  exists p l r, subtree (PNode p l r) s /\ (root_pos l = q \/ root_pos r = q).
Proof.
  induction s as [p|p l IHl r IHr]; intros I N; cbn [positions root_pos] in *.
  - destruct I as [<-|[]]. congruence.
  - apply in_app_or in I. destruct I as [I|I].
    + destruct (N.eq_dec q (root_pos l)) as [->|Ne]; [exists p, l, r; split; [constructor | left; reflexivity]|].
      destruct (IHl I Ne) as (p' & l' & r' & S & O). exists p', l', r'. split; [apply sub_left; exact S | exact O].
    + apply in_app_or in I. destruct I as [I|[->|[]]]; [|congruence].
      destruct (N.eq_dec q (root_pos r)) as [->|Ne]; [exists p, l, r; split; [constructor | right; reflexivity]|].
      destruct (IHr I Ne) as (p' & l' & r' & S & O). exists p', l', r'. split; [apply sub_right; exact S | exact O].
Qed.
Lemma subtree_positions s t : subtree s t -> forall q, In q (positions s) -> In q (positions t).
Proof.
  induction 1; intros q I; auto; cbn [positions]; apply in_or_app; [left; auto|right; apply in_or_app; left; auto].
Qed.
(** [in_subtree r q]: [q] is [r] or below it. *)
Definition in_sub (r q : N) : Prop := lo r <= q <= r.
Lemma in_sub_refl r : in_sub r r. Proof. unfold in_sub, lo. lia. Qed.
(** The parent of every position is a node containing everything below the position. *)
Lemma parent_exists p : p < W32 -> exists par, GetParent (Index_At p) = Ret (Index_At par) /\ p < par < W64 /\
  (forall q, in_sub p q -> in_sub par q) /\ (forall r, r < W64 -> in_sub r p -> r <> p -> in_sub r par).
Proof.
  intros Hp. assert (Hp64 : p < W64) by lia.
  assert (EX : exists K, In p (positions (big_tree K)) /\ p <> root_pos (big_tree K) /\ root_pos (big_tree K) < W64).
  { exists 40%nat. assert (I : In p (positions (big_tree 40))).
  { unfold big_tree. rewrite positions_seq. apply in_map_iff. exists (N.to_nat p). split; [lia|]. apply in_seq.
    split; [lia|]. assert (W32 <= p2 41 - 1) by (vm_compute; discriminate). lia. }
  assert (NR : p <> root_pos (big_tree 40)).
  { unfold big_tree. rewrite number_root. assert (W32 <= 2 * (p2 40 - 1)) by (vm_compute; discriminate). lia. }
  split; [exact I|]. split; [exact NR|]. unfold big_tree. rewrite number_root. vm_compute. reflexivity. }
  destruct EX as (K & I & NR & RB).
  destruct (parent_inside _ _ I NR) as (par & l & r & S & O).
  assert (B : par < W64).
  { destruct (subtree_number _ _ _ S) as (b' & _ & _ & HB & _). cbn [root_pos] in HB. fold (big_tree K) in HB. lia. }
  pose proof (nav_correct K par l r S B) as (_ & _ & G1 & G2 & _).
  destruct (children_in_tree _ _ _ _ S) as [Sl Sr].
  assert (CH : exists c, subtree c (PNode par l r) /\ c <> PNode par l r /\ subtree c (big_tree K) /\ root_pos c = p /\ GetParent (Index_At p) = Ret (Index_At par)).
  { destruct (node_shape _ _ _ _ S) as (b & h & El & Er & Ep & _). pose proof (p2_S h). pose proof (p2_pos h).
    destruct O as [O|O].
    - exists l. repeat split; auto; [apply sub_left; constructor| |congruence]. intros X.
      assert (root_pos l = par) by (rewrite X; reflexivity). rewrite El, number_root in H1. lia.
    - exists r. repeat split; auto; [apply sub_right; constructor| |congruence]. intros X.
      assert (root_pos r = par) by (rewrite X; reflexivity). rewrite Er, number_root in H1. lia. }
  destruct CH as (c & Sc & Nc & Sb & Rc & G). exists par. split; [exact G|].
  assert (LT : p < par).
  { assert (p <= par /\ p <> par).
    { split.
      - assert (Ip : In p (positions (PNode par l r))) by (apply (subtree_positions c); [exact Sc | rewrite <- Rc; apply root_in_positions]).
        apply (node_positions K _ par p S eq_refl B) in Ip. lia.
      - intros X. apply Nc. apply (subtree_unique K K); auto. rewrite Rc. exact X. }
    lia. }
  split; [lia|]. split.
  - intros q Q. apply (node_positions K (PNode par l r) par q S eq_refl B).
    apply (subtree_positions c); [exact Sc|]. apply (node_positions K c p q Sb Rc Hp64). exact Q.
  - intros r0 Hr0 Q Ne. destruct (position_in_big_tree r0 Hr0) as (H & s & A & E).
    assert (Iq : In p (positions s)) by (apply (node_positions H s r0 p A E Hr0); exact Q).
    assert (N2 : p <> root_pos s) by congruence.
    destruct (parent_inside s p Iq N2) as (par' & l' & r' & S' & O').
    assert (S'' : subtree (PNode par' l' r') (big_tree H)) by (eapply subtree_trans; eassumption).
    assert (B' : par' < W64).
    { assert (Ip : In par' (positions s)) by (apply (subtree_positions _ _ S'); apply (root_in_positions (PNode par' l' r'))).
      apply (node_positions H s r0 par' A E Hr0) in Ip. lia. }
    pose proof (nav_correct H par' l' r' S'' B') as (_ & _ & G1' & G2' & _).
    assert (par' = par).
    { assert (X : Index_At par' = Index_At par) by (destruct O' as [O'|O']; rewrite O' in *; congruence).
      unfold Index_At in X. congruence. }
    subst par'. apply (node_positions H s r0 par A E Hr0). apply (subtree_positions _ _ S'). apply (root_in_positions (PNode par l' r')).
Qed.

(** * Roaring *)
Lemma maximum_ge r : forall x acc, In x r -> x <= fold_left N.max r acc.
Proof.
  assert (M : forall r acc, acc <= fold_left N.max r acc).
  { induction r0 as [|y r0 IH]; intros acc; cbn [fold_left]; [lia|]. specialize (IH (N.max acc y)). lia. }
  induction r as [|y r IH]; intros x acc I; [destruct I|]. cbn [fold_left]. destruct I as [->|I]; [|apply IH; exact I].
  specialize (M r (N.max acc x)). lia.
Qed.
Lemma maximum_le r b : forall acc, acc <= b -> Forall (fun x => x <= b) r -> fold_left N.max r acc <= b.
Proof. induction r as [|y r IH]; intros acc A F; cbn [fold_left]; [exact A|]. inversion F; subst. apply IH; [lia | assumption]. Qed.
Definition one_based (roots : list N) : list N := map (fun r => r + 1) roots.
Lemma contains_roots roots p : p + 1 < W32 -> contains (one_based roots) (p + 1) = existsb (N.eqb p) roots.
Proof.
  intros Hp. unfold contains, one_based. rewrite N.mod_small by exact Hp. induction roots as [|r l IH]; [reflexivity|].
  cbn [map existsb]. rewrite IH. f_equal. destruct (N.eqb_spec (p + 1) (r + 1)), (N.eqb_spec p r); try reflexivity; exfalso; lia.
Qed.
Lemma rank_roots roots x : x < W32 -> rank (one_based roots) x = nlen (filter (fun r => r <? x) roots).
Proof.
  intros Hx. unfold rank, one_based, nlen. rewrite N.mod_small by exact Hx. f_equal. induction roots as [|r l IH]; [reflexivity|].
  cbn [map filter]. destruct (N.leb_spec (r + 1) x), (N.ltb_spec r x); cbn [length]; try lia.
Qed.
Lemma existsb_In l (p : N) : existsb (N.eqb p) l = true <-> In p l.
Proof.
  rewrite existsb_exists. split; [intros (x & I & E); apply N.eqb_eq in E; subst; exact I | intros I; exists p; split; [exact I | apply N.eqb_refl]].
Qed.
Lemma filter_sorted_eq (l l' : list N) : StronglySorted N.lt l -> StronglySorted N.lt l' -> (forall x, In x l <-> In x l') -> l = l'.
Proof.
  revert l'. induction l as [|a l IH]; intros l' S S' E.
  - destruct l' as [|b l']; [reflexivity|]. exfalso. apply (E b). left. reflexivity.
  - destruct l' as [|b l']; [exfalso; apply (E a); left; reflexivity|].
    inversion S as [|? ? S1 F1]; subst. inversion S' as [|? ? S2 F2]; subst. rewrite Forall_forall in *.
    assert (a = b).
    { destruct (N.lt_trichotomy a b) as [L|[L|L]]; [|exact L|]; exfalso.
      - assert (In a (b :: l')) as [X|X] by (apply E; left; reflexivity); [lia|]. specialize (F2 _ X). lia.
      - assert (In b (a :: l)) as [X|X] by (apply E; left; reflexivity); [lia|]. specialize (F1 _ X). lia. }
    subst b. f_equal. apply IH; auto. intros x. split; intros I.
    + assert (In x (a :: l')) as [X|X] by (apply E; right; exact I); [|exact X]. subst. specialize (F1 _ I). lia.
    + assert (In x (a :: l)) as [X|X] by (apply E; right; exact I); [|exact X]. subst. specialize (F2 _ I). lia.
Qed.
Lemma N_range_sorted a b : StronglySorted N.lt (N_range a b).
Proof.
  unfold N_range. generalize (N.to_nat (b - a)) as n. intros n.
  assert (G : forall n s, StronglySorted N.lt (map (fun k => a + N.of_nat k) (seq s n))).
  { induction n0 as [|m IH]; intros s; cbn [seq map]; constructor; [apply IH|].
    apply Forall_forall. intros x I. apply in_map_iff in I. destruct I as (k & <- & K). apply in_seq in K. lia. }
  apply G.
Qed.
Lemma filter_strong f (l : list N) : StronglySorted N.lt l -> StronglySorted N.lt (filter f l).
Proof.
  induction 1 as [|a l S IH F]; cbn [filter]; [constructor|]. destruct (f a); [|exact IH].
  constructor; [exact IH|]. rewrite Forall_forall in *. intros x I. apply filter_In in I. apply F, I.
Qed.

(** * Sums *)
Fixpoint sum (f : N -> N) (l : list N) : N := match l with [] => 0 | r :: l' => f r + sum f l' end.
Lemma sum_app f a b : sum f (a ++ b) = sum f a + sum f b.
Proof. induction a; cbn [sum app]; lia. Qed.
Fixpoint psums (f : N -> N) (acc : N) (l : list N) : list N :=
  match l with [] => [] | r :: l' => (acc + f r) :: psums f (acc + f r) l' end.
Lemma psums_length f l : forall acc, length (psums f acc l) = length l.
Proof. induction l; intros; cbn [psums length]; auto. Qed.
Lemma psums_nth f l : forall acc k, (k < length l)%nat -> nth k (psums f acc l) 0 = acc + sum f (firstn (S k) l).
Proof.
  induction l as [|r l IH]; intros acc k H; cbn [length] in H; [lia|]. cbn [psums firstn sum]. destruct k as [|k]; cbn [nth].
  - cbn [firstn sum]. destruct l; cbn; lia.
  - rewrite IH by lia. cbn [firstn]. lia.
Qed.
Lemma psums_snoc f l r : forall acc, psums f acc (l ++ [r]) = psums f acc l ++ [acc + sum f l + f r].
Proof.
  induction l as [|x l IH]; intros acc; cbn [psums app sum]; [f_equal; lia|]. rewrite IH. do 3 f_equal. lia.
Qed.

(** * Laminarity *)
Lemma above_child H par l r c r0 : subtree (PNode par l r) (big_tree H) -> par < W64 -> (root_pos l = c \/ root_pos r = c) ->
  r0 < W64 -> in_sub r0 c -> r0 <> c -> in_sub r0 par.
Proof.
  intros S B O Hr0 Q Ne. destruct (position_in_big_tree r0 Hr0) as (H' & s & A & E).
  assert (Iq : In c (positions s)) by (apply (node_positions H' s r0 c A E Hr0); exact Q).
  assert (N2 : c <> root_pos s) by congruence.
  destruct (parent_inside s c Iq N2) as (par' & l' & r' & S' & O').
  assert (S'' : subtree (PNode par' l' r') (big_tree H')) by (eapply subtree_trans; eassumption).
  assert (Ip : In par' (positions s)) by (apply (subtree_positions _ _ S'); apply (root_in_positions (PNode par' l' r'))).
  apply (node_positions H' s r0 par' A E Hr0) in Ip.
  assert (B' : par' < W64) by lia.
  pose proof (nav_correct H' par' l' r' S'' B') as (_ & _ & G1' & G2' & _).
  pose proof (nav_correct H par l r S B) as (_ & _ & G1 & G2 & _).
  assert (par' = par).
  { assert (X : Index_At par' = Index_At par) by (destruct O' as [O'|O'], O as [O|O]; rewrite O' in *; rewrite O in *; congruence).
    unfold Index_At in X. congruence. }
  subst par'. exact Ip.
Qed.
Lemma in_sub_trans a b c : a < W64 -> in_sub a b -> in_sub b c -> in_sub a c.
Proof.
  intros Ha Q1 Q2. assert (Hb : b < W64) by (unfold in_sub in Q1; lia).
  destruct (position_in_big_tree a Ha) as (H & s & A & E).
  assert (I : In b (positions s)) by (apply (node_positions H s a b A E Ha); exact Q1).
  assert (X : forall t, In b (positions t) -> exists u, subtree u t /\ root_pos u = b).
  { induction t as [p|p l IHl r IHr]; cbn [positions]; intros J.
    - destruct J as [<-|[]]. exists (PLeaf p). split; [constructor | reflexivity].
    - apply in_app_or in J. destruct J as [J|J]; [destruct (IHl J) as (u & U & R); exists u; split; [apply sub_left|]; assumption|].
      apply in_app_or in J. destruct J as [J|[<-|[]]]; [destruct (IHr J) as (u & U & R); exists u; split; [apply sub_right|]; assumption|].
      exists (PNode p l r). split; [constructor | reflexivity]. }
  destruct (X s I) as (u & U & R).
  apply (node_positions H s a c A E Ha). apply (subtree_positions u s U).
  apply (node_positions H u b c (subtree_trans _ _ _ U A) R Hb). exact Q2.
Qed.

(** * Sorted antichains *)
Definition chain_free (roots : list N) : Prop :=
  StronglySorted N.lt roots /\ Forall (fun r => r + 2 < W32) roots /\ forall r r', In r roots -> In r' roots -> r < r' -> r < lo r'.
Lemma valid_chain roots size : valid_roots roots size -> size + 1 < W32 -> chain_free roots.
Proof.
  intros (S & F & A) Hs. rewrite Forall_forall in F. split; [exact S|]. split; [apply Forall_forall; intros r I; specialize (F r I); lia|].
  intros r r' I I' L. destruct (N.lt_ge_cases r (lo r')) as [|G]; [assumption|]. exfalso.
  apply (A r' r I' I). apply descendant_interval; [specialize (F _ I'); lia | lia].
Qed.
Lemma chain_free_cons r l : chain_free (r :: l) -> chain_free l /\ r + 2 < W32 /\ Forall (fun x => r < lo x) l.
Proof.
  intros (S & F & A). inversion S; subst. inversion F; subst. split; [|split].
  - split; [assumption|]. split; [assumption|]. intros a b Ia Ib. apply A; right; assumption.
  - assumption.
  - rewrite Forall_forall in *. intros x I. apply A; [left; reflexivity | right; exact I | auto].
Qed.
Lemma chain_free_app a b : chain_free (a ++ b) -> chain_free a /\ chain_free b.
Proof.
  revert b. induction a as [|r a IH]; intros b C.
  - split; [|exact C]. split; [constructor|]. split; [constructor | intros ? ? []].
  - cbn [app] in C. destruct (chain_free_cons _ _ C) as (C1 & B & F). destruct (IH _ C1) as [Ca Cb]. split; [|exact Cb].
    destruct Ca as (S & F2 & A). apply Forall_app in F. destruct F as [Fa Fb]. rewrite Forall_forall in Fa.
    assert (LT : forall x, In x a -> r < x) by (intros x I; specialize (Fa x I); unfold lo in Fa; lia).
    split; [constructor; [exact S | apply Forall_forall; exact LT]|]. split; [constructor; assumption|].
    intros x y [<-|Ix] [<-|Iy] L; auto; [lia|]. specialize (LT _ Ix). lia.
Qed.
Definition lsf (r : N) : N := if CalculateHeight r =? 0 then 0 else 2 ^ CalculateHeight r.
Lemma shf_eq r : shf r = 2 * (2 ^ CalculateHeight r - 1). Proof. reflexivity. Qed.
Lemma lsf_eq r : lsf r = if CalculateHeight r =? 0 then 0 else 2 ^ CalculateHeight r. Proof. reflexivity. Qed.
Lemma shf_small r : r < W32 -> 2 ^ CalculateHeight r < W64 /\ 2 * (2 ^ CalculateHeight r - 1) <= r.
Proof. intros Hr. assert (Hr' : r < W64) by lia. pose proof (shf_le r Hr') as H. rewrite shf_eq in H. revert H. generalize (2 ^ CalculateHeight r) as x. intros x H. lia. Qed.
Lemma lsf_le_shf r : lsf r <= shf r.
Proof.
  unfold lsf, shf. generalize (CalculateHeight r) as h. intros h. destruct (N.eqb_spec h 0) as [|NZ]; [lia|].
  assert (H : 2 ^ 1 <= 2 ^ h) by (apply N.pow_le_mono_r; lia). change (2 ^ 1) with 2 in H. revert H. generalize (2 ^ h) as x. intros x H. lia.
Qed.
Lemma sum_le f g l : (forall r, f r <= g r) -> sum f l <= sum g l.
Proof. intros H. induction l; cbn [sum]; [lia|]. specialize (H a). lia. Qed.
Lemma sum_bound l b : chain_free l -> Forall (fun r => r < b) l -> sum shf l <= b.
Proof.
  revert b. induction l as [|r l IH] using rev_ind; intros b C F; [cbn; lia|].
  rewrite sum_app. cbn [sum]. apply Forall_app in F. destruct F as [F1 F2]. inversion F2; subst.
  pose proof (chain_free_app _ _ C) as [C1 _].
  assert (sum shf l <= lo r).
  { apply IH; [exact C1|]. destruct C as (S & _ & A). apply Forall_forall. intros x I.
    apply A; [apply in_or_app; left; exact I | apply in_or_app; right; left; reflexivity|].
    clear - S I. induction l as [|y l IHl]; [destruct I|]. cbn [app] in S. inversion S; subst. destruct I as [->|I].
    - rewrite Forall_forall in H2. apply H2. apply in_or_app. right. left. reflexivity.
    - auto. }
  destruct C as (_ & B & _). apply Forall_app in B. destruct B as [_ B]. inversion B; subst.
  pose proof (shf_le r ltac:(lia)). unfold lo in *. lia.
Qed.
Definition before (roots : list N) (x : N) : list N := filter (fun r => r <? x) roots.
Lemma before_split done r rest : chain_free (done ++ r :: rest) -> before (done ++ r :: rest) r = done.
Proof.
  intros C. unfold before. rewrite filter_app. cbn [filter]. rewrite N.ltb_irrefl.
  destruct C as (S & _ & _).
  assert (H1 : Forall (fun x => x < r) done /\ Forall (fun x => r < x) rest).
  { induction done as [|y d IH]; cbn [app] in S; inversion S; subst; [split; [constructor | assumption]|].
    destruct (IH H1) as [A B]. split; [|exact B]. constructor; [|exact A]. rewrite Forall_forall in H2. apply H2. apply in_or_app. right. left. reflexivity. }
  destruct H1 as [A B].
  assert (E1 : filter (fun r0 => r0 <? r) done = done).
  { clear - A. induction A as [|x l Hx A IH]; cbn [filter]; [reflexivity|]. destruct (N.ltb_spec x r); [f_equal; exact IH | lia]. }
  assert (E2 : filter (fun r0 => r0 <? r) rest = []).
  { clear - B. induction B as [|x l Hx B IH]; cbn [filter]; [reflexivity|]. destruct (N.ltb_spec x r); [lia | exact IH]. }
  rewrite E1, E2, app_nil_r. reflexivity.
Qed.
Lemma before_prefix roots x : StronglySorted N.lt roots -> before roots x = firstn (length (before roots x)) roots.
Proof.
  unfold before. induction 1 as [|a l S IH F]; cbn [filter]; [reflexivity|]. destruct (N.ltb_spec a x) as [L|G].
  - cbn [length firstn]. f_equal. exact IH.
  - assert (E : filter (fun r => r <? x) l = []).
    { clear - F G. induction F as [|y l Hy F IH]; cbn [filter]; [reflexivity|]. destruct (N.ltb_spec y x); [lia | exact IH]. }
    rewrite E. reflexivity.
Qed.

(** * Shift caches *)
Lemma cache_lookup f roots done rest x : chain_free roots -> roots = done ++ rest -> (length (before roots x) <= length done)%nat ->
  let k := nlen (before roots x) in let c := psums f 0 done in
  (if k =? 0 then 0 else if nlen c <? k then last c 0 else nth (N.to_nat (k - 1)) c 0) = sum f (before roots x).
Proof.
  intros C E L k c. destruct C as (S & _ & _). pose proof (before_prefix roots x S) as P. unfold k, nlen, c in *. clear k c.
  destruct (before roots x) as [|b0 bs] eqn:EB; [reflexivity|]. rewrite <- EB in *.
  assert (LB : (0 < length (before roots x))%nat) by (rewrite EB; cbn; lia).
  destruct (N.eqb_spec (N.of_nat (length (before roots x))) 0); [lia|].
  rewrite psums_length. destruct (N.ltb_spec (N.of_nat (length done)) (N.of_nat (length (before roots x)))); [lia|].
  rewrite psums_nth by lia. replace (Datatypes.S (N.to_nat (N.of_nat (length (before roots x)) - 1))) with (length (before roots x)) by lia.
  rewrite N.add_0_l. f_equal. rewrite P at 2. rewrite E at 3. rewrite firstn_app.
  replace (length (before roots x) - length done)%nat with 0%nat by lia. cbn [firstn]. rewrite app_nil_r. reflexivity.
Qed.
Definition caches (roots done : list N) (pc : roaring) : prunelist := mkPL (one_based roots) pc (psums shf 0 done) (psums lsf 0 done).
Lemma one_based_nil roots : one_based roots = [] -> roots = [].
Proof. destruct roots; [reflexivity | discriminate]. Qed.
Lemma GetShift_eq roots done rest pc ls x : chain_free roots -> roots = done ++ rest -> add64 x 1 < W32 ->
  (length (before roots (add64 x 1)) <= length done)%nat ->
  PL_GetShift (mkPL (one_based roots) pc (psums shf 0 done) ls) x = sum shf (before roots (add64 x 1)).
Proof.
  intros C E X L. pose proof (cache_lookup shf roots done rest (add64 x 1) C E L) as K. cbv zeta in K.
  unfold PL_GetShift. cbn [m_prunedRoots m_shiftCache].
  destruct (one_based roots) as [|o os] eqn:EO; [apply one_based_nil in EO; rewrite EO; reflexivity|]. rewrite <- EO.
  rewrite rank_roots by exact X. fold (before roots (add64 x 1)).
  destruct (psums shf 0 done) as [|c cs] eqn:EC; [|exact K].
  assert (D : done = []) by (destruct done; [reflexivity | discriminate]).
  rewrite D in L. cbn [length] in L. destruct (before roots (add64 x 1)); [reflexivity | cbn [length] in L; lia].
Qed.
Lemma GetLeafShift_eq roots done rest pc sc x : chain_free roots -> roots = done ++ rest -> add64 x 1 < W32 ->
  (length (before roots (add64 x 1)) <= length done)%nat ->
  PL_GetLeafShift (mkPL (one_based roots) pc sc (psums lsf 0 done)) x = sum lsf (before roots (add64 x 1)).
Proof.
  intros C E X L. pose proof (cache_lookup lsf roots done rest (add64 x 1) C E L) as K. cbv zeta in K.
  unfold PL_GetLeafShift. cbn [m_prunedRoots m_leafShiftCache].
  destruct (one_based roots) as [|o os] eqn:EO; [apply one_based_nil in EO; rewrite EO; reflexivity|]. rewrite <- EO.
  rewrite rank_roots by exact X. fold (before roots (add64 x 1)). cbv zeta.
  destruct (N.eqb_spec (nlen (before roots (add64 x 1))) 0) as [Z|NZ]; [exact K|].
  destruct (psums lsf 0 done) as [|c cs] eqn:EC; [|exact K].
  assert (D : done = []) by (destruct done; [reflexivity | discriminate]).
  rewrite D in L. cbn [length] in L. destruct (before roots (add64 x 1)); [reflexivity | cbn [length] in L; lia].
Qed.
Lemma succ_pred64 r : r < W64 -> add64 (sub64 r 1) 1 = r.
Proof. intros H. unfold add64, sub64. lia. Qed.
Lemma shift_step_root roots done r rest pc : chain_free roots -> roots = done ++ r :: rest ->
  shift_step (caches roots done pc) r = caches roots (done ++ [r]) pc.
Proof.
  intros C E. assert (Hr : r + 2 < W32).
  { destruct C as (_ & B & _). rewrite E in B. apply Forall_app in B. destruct B as [_ B]. inversion B; subst. assumption. }
  assert (BE : before roots (add64 (sub64 r 1) 1) = done) by (rewrite succ_pred64 by lia; rewrite E; apply before_split; rewrite <- E; exact C).
  assert (RB : add64 (sub64 r 1) 1 < W32) by (rewrite succ_pred64 by lia; lia).
  unfold shift_step, caches. cbn [m_prunedRoots m_prunedCache m_shiftCache m_leafShiftCache].
  rewrite (add64_small r 1) by lia. rewrite contains_roots by lia.
  replace (existsb (N.eqb r) roots) with true by (symmetry; apply existsb_In; rewrite E; apply in_or_app; right; left; reflexivity).
  cbv zeta. rewrite (GetShift_eq roots done (r :: rest) pc _ (sub64 r 1) C E RB) by (rewrite BE; lia).
  rewrite (GetLeafShift_eq roots done (r :: rest) pc _ (sub64 r 1) C E RB) by (rewrite BE; lia).
  rewrite BE. destruct (shf_small r ltac:(lia)) as [P1 P2].
  assert (SB : sum shf (done ++ [r]) <= r + 1).
  { rewrite E in C. change (done ++ r :: rest) with (done ++ [r] ++ rest) in C. rewrite app_assoc in C.
    pose proof (chain_free_app _ _ C) as [C1 _]. apply sum_bound; [exact C1|].
    assert (D : done = before (done ++ r :: rest) r) by (rewrite <- E; symmetry; rewrite succ_pred64 in BE by lia; exact BE).
    apply Forall_app. split; [|repeat constructor; lia]. apply Forall_forall. intros x I. rewrite D in I. apply filter_In in I. destruct I as [_ I]. apply N.ltb_lt in I. lia. }
  rewrite sum_app in SB. cbn [sum] in SB. pose proof (sum_le lsf shf done lsf_le_shf) as LB. pose proof (lsf_le_shf r) as LR.
  rewrite N.shiftl_1_l. rewrite (N.mod_small (2 ^ CalculateHeight r)) by exact P1.
  assert (P0 : 1 <= 2 ^ CalculateHeight r) by (pose proof (N.pow_nonzero 2 (CalculateHeight r) ltac:(lia)); lia).
  rewrite (sub64_small _ 1) by lia. rewrite (mul64_small 2) by lia. rewrite <- shf_eq, <- lsf_eq.
  rewrite !psums_snoc, !N.add_0_l. rewrite (add64_small (sum shf done)) by lia. rewrite (add64_small (sum lsf done)) by lia. reflexivity.
Qed.
Lemma fold_shift_roots roots pc : chain_free roots -> forall rest done, roots = done ++ rest ->
  fold_left shift_step rest (caches roots done pc) = caches roots roots pc.
Proof.
  intros C. induction rest as [|r rest IH]; intros done E; cbn [fold_left].
  - rewrite app_nil_r in E. subst. reflexivity.
  - rewrite (shift_step_root roots done r rest pc C E). apply IH. rewrite E, <- app_assoc. reflexivity.
Qed.
Lemma shift_step_fields l : forall pl, m_prunedRoots (fold_left shift_step l pl) = m_prunedRoots pl.
Proof.
  induction l as [|x l IH]; intros pl; cbn [fold_left]; [reflexivity|]. rewrite IH. unfold shift_step. destruct (contains _ _); reflexivity.
Qed.
Lemma fold_shift_filter l : forall pl, fold_left shift_step l pl = fold_left shift_step (filter (fun p => contains (m_prunedRoots pl) (add64 p 1)) l) pl.
Proof.
  induction l as [|x l IH]; intros pl; [reflexivity|]. cbn [fold_left filter]. destruct (contains (m_prunedRoots pl) (add64 x 1)) eqn:E; cbn [fold_left].
  - rewrite IH. f_equal. assert (X : m_prunedRoots (shift_step pl x) = m_prunedRoots pl) by (apply (shift_step_fields [x])). rewrite X. reflexivity.
  - assert (X : shift_step pl x = pl) by (unfold shift_step; rewrite E; reflexivity). rewrite X. apply IH.
Qed.
Lemma max_roots roots : Forall (fun r => r + 2 < W32) roots -> maximum (one_based roots) < W32 - 1 /\ forall r, In r roots -> r < maximum (one_based roots).
Proof.
  intros F. split.
  - assert (maximum (one_based roots) <= W32 - 2); [|lia]. apply maximum_le; [lia|]. apply Forall_forall. intros x I.
    apply in_map_iff in I. destruct I as (r & <- & I). rewrite Forall_forall in F. specialize (F r I). lia.
  - intros r I. assert (r + 1 <= maximum (one_based roots)); [|lia]. apply maximum_ge. apply in_map_iff. exists r. split; [reflexivity | exact I].
Qed.
Lemma PL_Load_caches roots : chain_free roots -> PL_Load (one_based roots) = caches roots roots (BuildPrunedCache (one_based roots)).
Proof.
  intros C. unfold PL_Load, BuildShiftCaches. cbn [m_prunedRoots m_prunedCache].
  destruct (one_based roots) as [|o os] eqn:EO; [apply one_based_nil in EO; subst roots; reflexivity|]. rewrite <- EO. clear o os EO.
  rewrite fold_shift_filter. cbn [m_prunedRoots].
  destruct C as (S & B & A). destruct (max_roots roots B) as [M1 M2].
  assert (E : filter (fun p => contains (one_based roots) (add64 p 1)) (N_range 0 (maximum (one_based roots))) = roots).
  { apply filter_sorted_eq; [apply filter_strong, N_range_sorted | exact S|]. intros x. rewrite filter_In, in_range. split.
    - intros [R K]. rewrite add64_small in K by lia. rewrite contains_roots in K by lia. apply existsb_In in K. exact K.
    - intros I. specialize (M2 x I). split; [lia|]. rewrite add64_small by lia. rewrite contains_roots by lia. apply existsb_In. exact I. }
  rewrite E. change (mkPL (one_based roots) (BuildPrunedCache (one_based roots)) [] []) with (caches roots [] (BuildPrunedCache (one_based roots))).
  apply fold_shift_roots; [repeat split; assumption | reflexivity].
Qed.
Lemma before_len roots x : (length (before roots x) <= length roots)%nat.
Proof. unfold before. induction roots as [|r l IH]; cbn [filter length]; [lia|]. destruct (r <? x); cbn [length]; lia. Qed.
Lemma load_shift roots x : chain_free roots -> add64 x 1 < W32 -> PL_GetShift (PL_Load (one_based roots)) x = sum shf (before roots (add64 x 1)).
Proof. intros C X. rewrite PL_Load_caches by exact C. apply GetShift_eq with []; auto; [symmetry; apply app_nil_r | apply before_len]. Qed.
Lemma load_leaf_shift roots x : chain_free roots -> add64 x 1 < W32 -> PL_GetLeafShift (PL_Load (one_based roots)) x = sum lsf (before roots (add64 x 1)).
Proof. intros C X. rewrite PL_Load_caches by exact C. apply GetLeafShift_eq with []; auto; [symmetry; apply app_nil_r | apply before_len]. Qed.
Lemma load_total_shift roots : chain_free roots -> PL_GetTotalShift (PL_Load (one_based roots)) = sum shf roots.
Proof.
  intros C. pose proof C as (_ & B & _). destruct (max_roots roots B) as [M1 M2]. unfold PL_GetTotalShift.
  assert (X : m_prunedRoots (PL_Load (one_based roots)) = one_based roots) by (rewrite PL_Load_caches by exact C; reflexivity).
  rewrite X. assert (A1 : add64 (maximum (one_based roots)) 1 = maximum (one_based roots) + 1) by (apply add64_small; lia).
  rewrite load_shift by (try exact C; lia). f_equal. rewrite A1. unfold before.
  assert (F : forall l, (forall r, In r l -> r < maximum (one_based roots)) -> filter (fun r => r <? maximum (one_based roots) + 1) l = l).
  { induction l as [|y l IH]; intros Q; [reflexivity|]. cbn [filter]. destruct (N.ltb_spec y (maximum (one_based roots) + 1)) as [|G].
    - f_equal. apply IH. intros r I. apply Q. right. exact I.
    - specialize (Q y (or_introl eq_refl)). lia. }
  apply F, M2.
Qed.

(** * The climb: which positions are compacted *)
Lemma climb_correct roots : chain_free roots -> forall fuel p, maximum (one_based roots) <= p + N.of_nat fuel -> 
  climb fuel (one_based roots) (maximum (one_based roots)) (Index_At p) = true <-> exists r, In r roots /\ in_sub r p.
Proof.
  intros C. pose proof C as (_ & B & _). destruct (max_roots roots B) as [M1 M2]. rewrite Forall_forall in B.
  set (mx := maximum (one_based roots)) in *.
  induction fuel as [|fuel IH]; intros p L; cbn [climb]; change (idx_position (Index_At p)) with p; destruct (N.ltb_spec p mx) as [LT|GE].
  - lia.
  - split; [discriminate|]. intros (r & I & Q). specialize (M2 r I). unfold in_sub in Q. lia.
  - rewrite add64_small by lia. rewrite contains_roots by lia. destruct (existsb (N.eqb p) roots) eqn:EX.
    + split; [|reflexivity]. intros _. exists p. apply existsb_In in EX. split; [exact EX | apply in_sub_refl].
    + destruct (parent_exists p ltac:(lia)) as (par & G & PB & D1 & D2). rewrite G.
      rewrite IH by lia. split; intros (r & I & Q); exists r; (split; [exact I|]); specialize (B r I).
      * apply in_sub_trans with par; [lia | exact Q|]. apply D1, in_sub_refl.
      * apply D2; [lia | exact Q|]. intros ->. apply existsb_In in I. congruence.
  - split; [discriminate|]. intros (r & I & Q). specialize (M2 r I). unfold in_sub in Q. lia.
Qed.
Lemma is_pruned_spec roots p : chain_free roots -> p + 1 < W32 -> IsPruned (PL_Load (one_based roots)) p = true <-> exists r, In r roots /\ in_sub r p.
Proof.
  intros C Hp. unfold IsPruned. rewrite PL_Load_caches by exact C. cbn [caches m_prunedCache]. rewrite add64_small by lia.
  pose proof C as (_ & B & _). destruct (max_roots roots B) as [M1 M2].
  unfold BuildPrunedCache. destruct (one_based roots) as [|o os] eqn:EO.
  { apply one_based_nil in EO. subst roots. split; [discriminate | intros (r & [] & _)]. }
  rewrite <- EO in M1, M2 |- *. clear o os EO. unfold contains. rewrite N.mod_small by exact Hp. rewrite existsb_In, in_map_iff. split.
  - intros (q & E & I). apply filter_In in I. destruct I as [R K]. apply in_range in R.
    rewrite add64_small in E by lia. rewrite N.mod_small in E by lia. assert (q = p) by lia. subst q.
    apply climb_correct in K; [exact K | exact C | lia].
  - intros (r & I & Q). exists p. pose proof (M2 r I) as Mr. unfold in_sub in Q. split; [rewrite add64_small by lia; apply N.mod_small; exact Hp|].
    apply filter_In. split; [apply in_range; lia|]. apply climb_correct; [exact C | lia|]. exists r. split; [exact I | exact Q].
Qed.
Lemma is_compacted_spec roots p : chain_free roots -> p + 1 < W32 ->
  IsCompacted (PL_Load (one_based roots)) p = true <-> exists r, In r roots /\ lo r <= p < r.
Proof.
  intros C Hp. unfold IsCompacted. rewrite andb_true_iff, is_pruned_spec by assumption.
  assert (X : IsPrunedRoot (PL_Load (one_based roots)) p = existsb (N.eqb p) roots).
  { unfold IsPrunedRoot. rewrite PL_Load_caches by exact C. cbn [caches m_prunedRoots]. rewrite add64_small by lia. apply contains_roots. exact Hp. }
  rewrite X, negb_true_iff. split.
  - intros [(r & I & Q) N]. exists r. split; [exact I|]. unfold in_sub in Q.
    assert (p <> r); [|lia]. intros ->. apply existsb_In in I. congruence.
  - intros (r & I & Q). split; [exists r; split; [exact I | unfold in_sub; lia]|].
    destruct (existsb (N.eqb p) roots) eqn:E; [|reflexivity]. apply existsb_In in E. destruct C as (_ & _ & A).
    specialize (A p r E I ltac:(lia)). lia.
Qed.
