(** Proofs for C52: the checksum detects any change of up to three characters. *)
From Coq Require Import FMapPositive.
From Verif Require Import Base Bytes FileModel SerialModel TextModel Bech32Model Bech32Spec Bech32Poly Bech32Proofs Bech32Text.
Local Open Scope N_scope.

(** ** A difference does not vanish *)
Lemma T_injective c : c < 2 ^ 30 -> T c = 0 -> c = 0.
Proof.
  intros H E. unfold T in E. apply N.lxor_eq in E. rewrite N.shiftl_mul_pow2 in E. change (2 ^ 5) with 32 in E.
  assert (B : forall i, 25 <= i < 30 -> N.testbit c i = false).
  { unfold gens in E.
    destruct (N.testbit c 25) eqn:B0, (N.testbit c 26) eqn:B1, (N.testbit c 27) eqn:B2, (N.testbit c 28) eqn:B3, (N.testbit c 29) eqn:B4;
    cbn [cond] in E; match type of E with _ = ?g => let v := eval vm_compute in g in change g with v in E end; try lia.
    intros i Hi. assert (i = 25 \/ i = 26 \/ i = 27 \/ i = 28 \/ i = 29) as [->|[->|[->|[->| ->]]]] by lia; assumption. }
  unfold gens in E. rewrite !B in E by lia. cbn [cond] in E. rewrite !N.lxor_0_r in E.
  assert (Z : N.land c 0x1ffffff = 0) by lia. apply N.bits_inj. intros i. rewrite N.bits_0.
  destruct (N.lt_ge_cases i 25) as [L|L].
  - apply (f_equal (fun x => N.testbit x i)) in Z. rewrite N.land_spec, N.bits_0 in Z. change 0x1ffffff with (N.ones 25) in Z.
    rewrite N.ones_spec_low, andb_true_r in Z by exact L. exact Z.
  - destruct (N.lt_ge_cases i 30) as [L'|L']; [apply B; lia|]. destruct (N.eq_dec c 0) as [->|Hz]; [apply N.bits_0|].
    apply N.bits_above_log2. eapply N.lt_le_trans; [|exact L']. apply N.log2_lt_pow2; [lia|exact H].
Qed.
Lemma Tn_bound n : forall c, c < 2 ^ 30 -> Tn n c < 2 ^ 30.
Proof. induction n as [|n IH]; intros c H; [exact H|]. cbn [Tn]. apply IH, T_bound. Qed.
Lemma Tn_injective n : forall c, c < 2 ^ 30 -> Tn n c = 0 -> c = 0.
Proof. induction n as [|n IH]; intros c H E; [exact E|]. cbn [Tn] in E. apply T_injective; [exact H|]. apply IH; [apply T_bound|exact E]. Qed.

(** ** The table of differences, by distance and value *)
Fixpoint rows (n : nat) (row : list N) : list N :=
  match n with O => [] | S k => let r := map T row in map (fun x => x / 32) r ++ rows k r end.
Fixpoint distinct (l : list N) (m : PositiveMap.t unit) : bool :=
  match l with
  | [] => true
  | x :: l' => match PositiveMap.find (N.succ_pos x) m with
               | Some _ => false
               | None => distinct l' (PositiveMap.add (N.succ_pos x) tt m)
               end
  end.
Definition ones_to_31 : list N := map N.of_nat (seq 1 31).
Lemma table_distinct : distinct (0 :: rows 88 ones_to_31) (PositiveMap.empty unit) = true.
Proof. vm_compute. reflexivity. Qed.

Lemma distinct_nodup : forall l m, distinct l m = true -> NoDup l /\ forall x, In x l -> PositiveMap.find (N.succ_pos x) m = None.
Proof.
  induction l as [|x l IH]; intros m E; [split; [constructor|intros x []]|]. cbn [distinct] in E.
  destruct (PositiveMap.find (N.succ_pos x) m) eqn:F; [discriminate|]. destruct (IH _ E) as [H1 H2]. split.
  - constructor; [|exact H1]. intros Hi. specialize (H2 x Hi). rewrite PositiveMap.gss in H2. discriminate.
  - intros y [<-|Hi]; [exact F|]. specialize (H2 y Hi). destruct (N.eq_dec x y) as [->|Ne]; [exact F|].
    rewrite PositiveMap.gso in H2; [exact H2|]. intros Q. apply Ne. apply (f_equal Npos) in Q. rewrite !N.succ_pos_spec in Q. lia.
Qed.
Definition at_ (p : nat * N) : N := Tn (fst p) (snd p) / 32.
Definition pairs (n d0 : nat) (base : list N) : list (nat * N) := flat_map (fun d => map (pair d) base) (seq (S d0) n).
Lemma rows_pairs n : forall d0 base, rows n (map (Tn d0) base) = map at_ (pairs n d0 base).
Proof.
  unfold pairs. induction n as [|n IH]; intros d0 base; [reflexivity|]. cbn [rows seq flat_map]. cbv zeta. rewrite map_app. f_equal.
  - rewrite !map_map. apply map_ext. intros a. unfold at_. cbn [fst snd]. rewrite Tn_S. reflexivity.
  - rewrite <- (IH (S d0) base). f_equal. rewrite map_map. apply map_ext. intros a. rewrite Tn_S. reflexivity.
Qed.
Lemma nodup_map_inj {A B} (f : A -> B) l x y : NoDup (map f l) -> In x l -> In y l -> f x = f y -> x = y.
Proof.
  induction l as [|a l IH]; intros N X Y E; [contradiction|]. cbn in N. inversion N; subst. destruct X as [<-|X], Y as [<-|Y]; auto.
  - exfalso. apply H1. rewrite E. apply in_map. exact Y.
  - exfalso. apply H1. rewrite <- E. apply in_map. exact X.
Qed.
Lemma in_pairs d a : (1 <= d <= 88)%nat -> 0 < a < 32 -> In (d, a) (pairs 88 0 ones_to_31).
Proof.
  intros Hd Ha. unfold pairs. apply in_flat_map. exists d. split; [apply in_seq; lia|]. apply in_map. unfold ones_to_31. apply in_map_iff.
  exists (N.to_nat a). split; [lia|]. apply in_seq. lia.
Qed.
Lemma table_facts : (forall d a, (1 <= d <= 88)%nat -> 0 < a < 32 -> Tn d a / 32 <> 0) /\
  (forall d a d' a', (1 <= d <= 88)%nat -> 0 < a < 32 -> (1 <= d' <= 88)%nat -> 0 < a' < 32 -> Tn d a / 32 = Tn d' a' / 32 -> d = d').
Proof.
  destruct (distinct_nodup _ _ table_distinct) as [Nd _].
  change ones_to_31 with (map (fun x => x) ones_to_31) in Nd. replace (map (fun x => x) ones_to_31) with (map (Tn 0) ones_to_31) in Nd by reflexivity.
  rewrite rows_pairs in Nd. apply NoDup_cons_iff in Nd. destruct Nd as [N0 Nd]. split.
  - intros d a Hd Ha E. apply N0. apply in_map_iff. exists (d, a). split; [exact E|]. apply in_pairs; assumption.
  - intros d a d' a' Hd Ha Hd' Ha' E. pose proof (nodup_map_inj at_ _ (d, a) (d', a') Nd (in_pairs _ _ Hd Ha) (in_pairs _ _ Hd' Ha') E) as Q. congruence.
Qed.

(** ** Differences of two lists of values *)
Fixpoint xors (a b : list N) : list N :=
  match a, b with x :: a', y :: b' => N.lxor x y :: xors a' b' | _, _ => [] end.
Lemma PM_xors : forall a b c d, length a = length b -> PM (N.lxor c d) (xors a b) = N.lxor (PM c a) (PM d b).
Proof.
  induction a as [|x a IH]; intros [|y b] c d L; try discriminate; [reflexivity|]. cbn [xors]. rewrite !PM_cons, T_xor. rewrite <- IH by (cbn in L; lia). f_equal.
  apply N.bits_inj. intros n. rewrite !N.lxor_spec. destruct (N.testbit (T c) n), (N.testbit (T d) n), (N.testbit x n), (N.testbit y n); reflexivity.
Qed.
Fixpoint weight (e : list N) : nat := match e with [] => 0 | x :: e' => (if (x =? 0)%N then 0 else 1) + weight e' end.
Lemma xors_weight : forall a b, weight (xors a b) = differences a b.
Proof.
  induction a as [|x a IH]; intros [|y b]; cbn [xors weight differences]; try reflexivity. rewrite IH. f_equal.
  destruct (x =? y) eqn:E.
  - apply N.eqb_eq in E. subst. rewrite N.lxor_nilpotent. reflexivity.
  - destruct (N.lxor x y =? 0) eqn:F; [|reflexivity]. apply N.eqb_eq, N.lxor_eq in F. apply N.eqb_neq in E. contradiction.
Qed.
Lemma xors_five : forall a b, Forall five a -> Forall five b -> Forall five (xors a b).
Proof.
  induction a as [|x a IH]; intros [|y b] H H'; cbn [xors]; try constructor. 
  - inversion H; inversion H'; subst. unfold five in *. apply (lxor_bound x y 5); assumption.
  - inversion H; inversion H'; subst. apply IH; assumption.
Qed.
Lemma xors_length : forall a b, length a = length b -> length (xors a b) = length a.
Proof. induction a as [|x a IH]; intros [|y b] L; try discriminate; [reflexivity|]. cbn in *. rewrite IH; lia. Qed.
Lemma first_nonzero : forall e w, weight e = S w -> Forall five e ->
  exists k a r, e = repeat 0 k ++ a :: r /\ 0 < a < 32 /\ weight r = w /\ Forall five r /\ (length e = k + 1 + length r)%nat.
Proof.
  induction e as [|x e IH]; intros w E F; [discriminate|]. cbn [weight] in E. inversion F; subst. destruct (x =? 0) eqn:X.
  - apply N.eqb_eq in X. subst x. destruct (IH w E H2) as (k & a & r & -> & H3 & H4 & H5 & H6). exists (S k), a, r. repeat split; auto; cbn [length] in *; lia.
  - exists O, x, e. apply N.eqb_neq in X. unfold five in H1. repeat split; auto; cbn [length] in *; lia.
Qed.
Lemma weight_zero : forall e, weight e = O -> e = repeat 0 (length e).
Proof. induction e as [|x e IH]; intros E; [reflexivity|]. cbn [weight] in E. destruct (x =? 0) eqn:X; [|discriminate]. apply N.eqb_eq in X. subst. cbn. rewrite <- IH by exact E. reflexivity. Qed.
Lemma PM_skip c k a r : PM c (repeat 0 k ++ a :: r) = PM (N.lxor (Tn (S k) c) a) r.
Proof. rewrite PM_app, PM_zeros, PM_cons, Tn_S. reflexivity. Qed.
Lemma PM_end c r : weight r = O -> PM c r = Tn (length r) c.
Proof. intros W. rewrite (weight_zero r W) at 1. apply PM_zeros. Qed.

Lemma detect e : (1 <= weight e <= 3)%nat -> Forall five e -> (length e <= 88)%nat -> PM 0 e <> 0.
Proof.
  intros W F L Z. destruct (weight e) as [|w] eqn:We; [lia|].
  destruct (first_nonzero _ _ We F) as (k & a & r & -> & Ha & Wr & Fr & Le). rewrite PM_skip, Tn_0, N.lxor_0_l in Z.
  destruct table_facts as [T1 T2].
  destruct w as [|w].
  { rewrite PM_end in Z by exact Wr. apply Tn_injective in Z; [lia|]. apply five30. apply Ha. }
  destruct (first_nonzero _ _ Wr Fr) as (k1 & b & r1 & -> & Hb & Wr1 & Fr1 & Le1). rewrite PM_skip in Z.
  destruct w as [|w].
  { rewrite PM_end in Z by exact Wr1. apply Tn_injective in Z.
    - apply N.lxor_eq in Z. apply (T1 (S k1) a); [lia|exact Ha|]. rewrite Z. apply N.div_small. lia.
    - apply lxor_bound; [apply Tn_bound, five30, Ha|apply five30, Hb]. }
  assert (w = O) by lia. subst w.
  destruct (first_nonzero _ _ Wr1 Fr1) as (k2 & c & r2 & -> & Hc & Wr2 & Fr2 & Le2). rewrite PM_skip in Z.
  rewrite PM_end in Z by exact Wr2. apply Tn_injective in Z.
  - apply N.lxor_eq in Z. rewrite Tn_xor in Z.
    assert (D : Tn (S k2) (Tn (S k1) a) = Tn (S k1 + S k2) a).
    { clear. revert a. induction (S k1) as [|n IH]; intros a; [reflexivity|]. cbn [Nat.add Tn]. apply IH. }
    rewrite D in Z. assert (S k1 + S k2 = S k2)%nat; [|lia].
    apply (T2 _ a _ b); [lia|exact Ha|lia|exact Hb|].
    apply (f_equal (fun x => N.shiftr x 5)) in Z. rewrite N.shiftr_lxor in Z. rewrite !N.shiftr_div_pow2 in Z. change (2 ^ 5) with 32 in Z.
    rewrite (N.div_small c 32) in Z by lia. apply N.lxor_eq in Z. exact Z.
  - apply lxor_bound; [|apply five30, Hc]. apply Tn_bound. apply lxor_bound; [apply Tn_bound, five30, Ha|apply five30, Hb].
Qed.
