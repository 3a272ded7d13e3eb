(** The checksum of bech32 as a linear map (C52). *)
From Verif Require Import Base Bytes FileModel SerialModel TextModel Bech32Model.
Local Open Scope N_scope.

Definition cond (b : bool) (g : N) : N := if b then g else 0.
Definition gens (c : N) : N :=
  N.lxor (cond (N.testbit c 25) 0x3b6a57b2) (N.lxor (cond (N.testbit c 26) 0x26508e6d)
  (N.lxor (cond (N.testbit c 27) 0x1ea119fa) (N.lxor (cond (N.testbit c 28) 0x3d4233dd) (cond (N.testbit c 29) 0x2a1462b3)))).
Definition T (c : N) : N := N.lxor (N.shiftl (N.land c 0x1ffffff) 5) (gens c).

Lemma xor_if_cond b g c : xor_if b g c = N.lxor c (cond b g).
Proof. destruct b; cbn [xor_if cond]; [reflexivity|]. rewrite N.lxor_0_r. reflexivity. Qed.
Ltac xor_eq := apply N.bits_inj; intros ?n; rewrite ?N.lxor_spec;
  repeat match goal with |- context [N.testbit ?a n] => generalize (N.testbit a n); intros ? end;
  repeat match goal with b : bool |- _ => destruct b; clear b end; try reflexivity.
Ltac bool_cases := repeat match goal with |- context [N.testbit ?a ?m] => destruct (N.testbit a m) end; reflexivity.
Lemma c0_bit c i : i < 8 -> N.testbit (N.shiftr c 25 mod 256) i = N.testbit c (i + 25).
Proof. intros H. change 256 with (2 ^ 8). rewrite N.mod_pow2_bits_low by exact H. rewrite N.shiftr_spec by apply N.le_0_l. reflexivity. Qed.
Lemma step_T c v : polymod_step c v = N.lxor (T c) v.
Proof.
  unfold polymod_step. cbv zeta. rewrite !xor_if_cond, !c0_bit by lia. cbn [N.add].
  change (0 + 25) with 25. change (1 + 25) with 26. change (2 + 25) with 27. change (3 + 25) with 28. change (4 + 25) with 29.
  unfold T, gens.
  generalize (N.shiftl (N.land c 0x1ffffff) 5); intros x.
  generalize (cond (N.testbit c 25) 0x3b6a57b2) (cond (N.testbit c 26) 0x26508e6d) (cond (N.testbit c 27) 0x1ea119fa)
    (cond (N.testbit c 28) 0x3d4233dd) (cond (N.testbit c 29) 0x2a1462b3). intros a b d e f.
  apply N.bits_inj; intros n. rewrite !N.lxor_spec. bool_cases.
Qed.
Lemma cond_xorb a b g : cond (xorb a b) g = N.lxor (cond a g) (cond b g).
Proof. destruct a, b; cbn [cond xorb]; rewrite ?N.lxor_nilpotent, ?N.lxor_0_r, ?N.lxor_0_l; reflexivity. Qed.
Lemma gens_xor a b : gens (N.lxor a b) = N.lxor (gens a) (gens b).
Proof.
  unfold gens. rewrite !N.lxor_spec, !cond_xorb.
  generalize (cond (N.testbit a 25) 0x3b6a57b2) (cond (N.testbit a 26) 0x26508e6d) (cond (N.testbit a 27) 0x1ea119fa)
    (cond (N.testbit a 28) 0x3d4233dd) (cond (N.testbit a 29) 0x2a1462b3). intros a1 a2 a3 a4 a5.
  generalize (cond (N.testbit b 25) 0x3b6a57b2) (cond (N.testbit b 26) 0x26508e6d) (cond (N.testbit b 27) 0x1ea119fa)
    (cond (N.testbit b 28) 0x3d4233dd) (cond (N.testbit b 29) 0x2a1462b3). intros b1 b2 b3 b4 b5.
  apply N.bits_inj; intros n. rewrite !N.lxor_spec.
  destruct (N.testbit a1 n), (N.testbit a2 n), (N.testbit a3 n), (N.testbit a4 n), (N.testbit a5 n); bool_cases.
Qed.
Lemma T_xor a b : T (N.lxor a b) = N.lxor (T a) (T b).
Proof.
  unfold T. rewrite gens_xor.
  replace (N.land (N.lxor a b) 0x1ffffff) with (N.lxor (N.land a 0x1ffffff) (N.land b 0x1ffffff)).
  2:{ apply N.bits_inj; intros n. rewrite ?N.lxor_spec, ?N.land_spec, ?N.lxor_spec. bool_cases. }
  rewrite N.shiftl_lxor. generalize (N.shiftl (N.land a 0x1ffffff) 5) (N.shiftl (N.land b 0x1ffffff) 5). intros x y.
  apply N.bits_inj; intros n. rewrite !N.lxor_spec. bool_cases.
Qed.
Lemma T_0 : T 0 = 0. Proof. reflexivity. Qed.

(** The state after reading values from the state [c]. *)
Definition PM (c : N) (v : list N) : N := fold_left polymod_step v c.
Lemma PM_app c a b : PM c (a ++ b) = PM (PM c a) b.
Proof. unfold PM. apply fold_left_app. Qed.
Fixpoint Tn (n : nat) (c : N) : N := match n with O => c | S k => Tn k (T c) end.
Lemma Tn_xor n : forall a b, Tn n (N.lxor a b) = N.lxor (Tn n a) (Tn n b).
Proof. induction n as [|n IH]; intros a b; [reflexivity|]. cbn [Tn]. rewrite T_xor. apply IH. Qed.
Lemma Tn_0 n : Tn n 0 = 0. Proof. induction n; [reflexivity|]. cbn [Tn]. rewrite T_0. exact IHn. Qed.
Lemma Tn_S n : forall c, Tn (S n) c = T (Tn n c).
Proof. induction n as [|n IH]; intros c; [reflexivity|]. change (Tn (S (S n)) c) with (Tn (S n) (T c)). rewrite IH. reflexivity. Qed.
Lemma PM_cons c v l : PM c (v :: l) = PM (N.lxor (T c) v) l.
Proof. unfold PM. cbn [fold_left]. rewrite step_T. reflexivity. Qed.
Lemma PM_split l : forall c, PM c l = N.lxor (Tn (length l) c) (PM 0 l).
Proof.
  induction l as [|v l IH]; intros c.
  - cbn. rewrite N.lxor_0_r. reflexivity.
  - rewrite !PM_cons. cbn [length Tn]. rewrite (IH (N.lxor (T c) v)), (IH (N.lxor (T 0) v)), T_0, N.lxor_0_l, Tn_xor. rewrite N.lxor_assoc. reflexivity.
Qed.
Lemma PM_zeros n : forall c, PM c (repeat 0 n) = Tn n c.
Proof. induction n as [|n IH]; intros c; [reflexivity|]. cbn [repeat Tn]. rewrite PM_cons, N.lxor_0_r. apply IH. Qed.

(** ** Bounds *)
Lemma lxor_bound a b k : a < 2 ^ k -> b < 2 ^ k -> N.lxor a b < 2 ^ k.
Proof.
  intros Ha Hb. destruct (N.eq_dec (N.lxor a b) 0) as [->|Hz]; [apply N.neq_0_lt_0, N.pow_nonzero; lia|].
  apply N.log2_lt_pow2; [lia|]. eapply N.le_lt_trans; [apply N.log2_lxor|].
  destruct (N.eq_dec k 0) as [->|Hk]; [change (2 ^ 0) with 1 in *; replace a with 0 in * by lia; replace b with 0 in * by lia; cbn in *; lia|].
  apply N.max_lub_lt.
  - destruct (N.eq_dec a 0) as [->|]; [cbn; lia|apply N.log2_lt_pow2; lia].
  - destruct (N.eq_dec b 0) as [->|]; [cbn; lia|apply N.log2_lt_pow2; lia].
Qed.
Lemma cond_bound b g : g < 2 ^ 30 -> cond b g < 2 ^ 30.
Proof. intros H. destruct b; [exact H|reflexivity]. Qed.
Lemma T_bound c : T c < 2 ^ 30.
Proof.
  unfold T, gens. apply lxor_bound.
  - rewrite N.shiftl_mul_pow2. change 0x1ffffff with (N.ones 25). rewrite N.land_ones.
    pose proof (N.mod_upper_bound c (2 ^ 25) ltac:(discriminate)) as H. change (2 ^ 30) with (2 ^ 25 * 2 ^ 5). nia.
  - repeat apply lxor_bound; apply cond_bound; reflexivity.
Qed.
Definition five (v : N) : Prop := v < 32.
Lemma five30 v : five v -> v < 2 ^ 30. Proof. unfold five. intros H. eapply N.lt_trans; [exact H|reflexivity]. Qed.
Lemma PM_bound l c : c < 2 ^ 30 -> Forall five l -> PM c l < 2 ^ 30.
Proof.
  revert c. induction l as [|v l IH]; intros c Hc H; [exact Hc|]. inversion H; subst. rewrite PM_cons. apply IH; [|assumption].
  apply lxor_bound; [apply T_bound|apply five30; assumption].
Qed.

(** Shifting in 5 bits, while no coefficient is lost. *)
Lemma T_small c : c < 2 ^ 25 -> T c = 32 * c.
Proof.
  intros H. unfold T, gens.
  assert (Z : forall i, 25 <= i -> N.testbit c i = false).
  { intros i Hi. destruct (N.eq_dec c 0) as [->|Hz]; [apply N.bits_0|]. apply N.bits_above_log2.
    eapply N.lt_le_trans; [|exact Hi]. apply N.log2_lt_pow2; lia. }
  rewrite !Z by lia. cbn [cond]. rewrite !N.lxor_0_r. change 0x1ffffff with (N.ones 25). rewrite N.land_ones, N.mod_small by exact H.
  rewrite N.shiftl_mul_pow2. change (2 ^ 5) with 32. lia.
Qed.
Lemma lxor_add a v : v < 32 -> N.lxor (32 * a) v = 32 * a + v.
Proof.
  intros H. symmetry. apply N.add_nocarry_lxor. apply N.bits_inj. intros n. rewrite N.land_spec, N.bits_0.
  replace (32 * a) with (N.shiftl a 5) by (rewrite N.shiftl_mul_pow2; change (2 ^ 5) with 32; lia).
  destruct (N.lt_ge_cases n 5) as [L|L].
  - rewrite N.shiftl_spec_low by exact L. reflexivity.
  - replace (N.testbit v n) with false; [apply andb_false_r|]. symmetry.
    destruct (N.eq_dec v 0) as [->|Hz]; [apply N.bits_0|]. apply N.bits_above_log2. eapply N.lt_le_trans; [|exact L].
    apply N.log2_lt_pow2; [lia|exact H].
Qed.
Lemma PM_six a b c d e f : five a -> five b -> five c -> five d -> five e -> five f ->
  PM 0 [a; b; c; d; e; f] = ((((a * 32 + b) * 32 + c) * 32 + d) * 32 + e) * 32 + f.
Proof.
  unfold five. intros. rewrite !PM_cons. change (PM ?x []) with x. rewrite T_0, N.lxor_0_l.
  change (2 ^ 25) with 33554432 in *.
  rewrite (T_small a) by (change (2 ^ 25) with 33554432; lia). rewrite (lxor_add a b) by assumption.
  rewrite (T_small (32 * a + b)) by (change (2 ^ 25) with 33554432; lia). rewrite (lxor_add _ c) by assumption.
  rewrite (T_small (32 * (32 * a + b) + c)) by (change (2 ^ 25) with 33554432; lia). rewrite (lxor_add _ d) by assumption.
  rewrite (T_small (32 * (32 * (32 * a + b) + c) + d)) by (change (2 ^ 25) with 33554432; lia). rewrite (lxor_add _ e) by assumption.
  rewrite (T_small (32 * (32 * (32 * (32 * a + b) + c) + d) + e)) by (change (2 ^ 25) with 33554432; lia). rewrite (lxor_add _ f) by assumption.
  lia.
Qed.

Lemma digit_val m k : N.land (N.shiftr m k) 31 = m / 2 ^ k mod 32.
Proof. change 31 with (N.ones 5). rewrite N.land_ones, N.shiftr_div_pow2. reflexivity. Qed.
Lemma digits_join m : m < 2 ^ 30 ->
  PM 0 (map (fun i => N.land (N.shiftr m (5 * (5 - i))) 31) [0; 1; 2; 3; 4; 5]) = m.
Proof.
  intros H. cbn [map]. rewrite !digit_val.
  change (5 * (5 - 0)) with 25. change (5 * (5 - 1)) with 20. change (5 * (5 - 2)) with 15. change (5 * (5 - 3)) with 10.
  change (5 * (5 - 4)) with 5. change (5 * (5 - 5)) with 0.
  rewrite PM_six by (unfold five; apply N.mod_upper_bound; discriminate).
  change (2 ^ 25) with (32 * 32 * 32 * 32 * 32). change (2 ^ 20) with (32 * 32 * 32 * 32). change (2 ^ 15) with (32 * 32 * 32).
  change (2 ^ 10) with (32 * 32). change (2 ^ 5) with 32. change (2 ^ 0) with 1. rewrite <- !N.div_div by discriminate. rewrite N.div_1_r.
  change (2 ^ 30) with 1073741824 in H.
  pose proof (N.div_mod m 32 ltac:(discriminate)) as D1. set (q1 := m / 32) in *.
  pose proof (N.div_mod q1 32 ltac:(discriminate)) as D2. set (q2 := q1 / 32) in *.
  pose proof (N.div_mod q2 32 ltac:(discriminate)) as D3. set (q3 := q2 / 32) in *.
  pose proof (N.div_mod q3 32 ltac:(discriminate)) as D4. set (q4 := q3 / 32) in *.
  pose proof (N.div_mod q4 32 ltac:(discriminate)) as D5. set (q5 := q4 / 32) in *.
  assert (q5 < 32) by (clear -H D1 D2 D3 D4 D5; clearbody q1 q2 q3 q4 q5;
    generalize dependent (m mod 32); generalize dependent (q1 mod 32); generalize dependent (q2 mod 32); generalize dependent (q3 mod 32);
    generalize dependent (q4 mod 32); intros; lia).
  rewrite (N.mod_small q5 32) by assumption. clearbody q1 q2 q3 q4 q5.
  generalize dependent (m mod 32); generalize dependent (q1 mod 32); generalize dependent (q2 mod 32); generalize dependent (q3 mod 32);
    generalize dependent (q4 mod 32); intros; lia.
Qed.

(** The checksum is the only one that verifies. *)
Lemma hrp_five hrp : is_bytes hrp -> Forall five (ExpandHRP hrp).
Proof.
  intros H. unfold ExpandHRP. apply Forall_app. split; [|apply Forall_app; split; [repeat constructor|]].
  - apply Forall_map. eapply Forall_impl; [|exact H]. intros c Hc. cbn beta in Hc. unfold five. rewrite N.shiftr_div_pow2. change (2 ^ 5) with 32. lia.
  - apply Forall_map. eapply Forall_impl; [|exact H]. intros c Hc. cbn beta in Hc. unfold five. change 31 with (N.ones 5). rewrite N.land_ones. apply N.mod_upper_bound. discriminate.
Qed.
Lemma checksum_length hrp v : length (CreateChecksum hrp v) = 6%nat. Proof. reflexivity. Qed.
Lemma checksum_five hrp v : Forall five (CreateChecksum hrp v).
Proof. unfold CreateChecksum. cbv zeta. apply Forall_map, Forall_forall. intros i _. unfold five. rewrite digit_val. apply N.mod_upper_bound. discriminate. Qed.
Lemma checksum_verifies hrp v c : is_bytes hrp -> Forall five v -> Forall five c -> length c = 6%nat ->
  (VerifyChecksum hrp (v ++ c) = true <-> c = CreateChecksum hrp v).
Proof.
  intros Hh Hv Hc Lc. unfold VerifyChecksum, CreateChecksum, PolyMod. cbv zeta.
  change (fold_left polymod_step ?l 1) with (PM 1 l). rewrite !app_assoc, !PM_app.
  set (p := PM (PM 1 (ExpandHRP hrp)) v). rewrite (PM_split c), PM_zeros, Lc.
  assert (P : p < 2 ^ 30). { unfold p. rewrite <- PM_app. apply PM_bound; [reflexivity|]. apply Forall_app. split; [apply hrp_five; exact Hh|exact Hv]. }
  set (m := N.lxor (Tn 6 p) 1).
  assert (M : m < 2 ^ 30). { unfold m. apply lxor_bound; [|reflexivity]. rewrite Tn_S. apply T_bound. }
  pose proof (digits_join m M) as D. set (chk := map _ _) in *.
  rewrite N.eqb_eq. split.
  - intros E. assert (Q : PM 0 c = PM 0 chk).
    { rewrite D. unfold m. apply (f_equal (N.lxor (Tn 6 p))) in E. rewrite <- N.lxor_assoc, N.lxor_nilpotent, N.lxor_0_l in E. exact E. }
    assert (F : Forall five chk) by (unfold chk; apply Forall_map, Forall_forall; intros i _; unfold five; rewrite digit_val; apply N.mod_upper_bound; discriminate).
    destruct c as [|a [|b [|d [|e [|f [|g [|]]]]]]]; try discriminate. unfold chk in *. cbn [map] in *.
    repeat match goal with H : Forall five (_ :: _) |- _ => apply Forall_cons_iff in H; destruct H end.
    rewrite !PM_six in Q by assumption. unfold five in *. clear D M P.
    repeat match goal with |- context [N.land ?x 31] => generalize dependent (N.land x 31); intros end.
    assert (a = n /\ b = n0 /\ d = n1 /\ e = n2 /\ f = n3 /\ g = n4) by lia. intuition congruence.
  - intros ->. rewrite D. unfold m. rewrite <- N.lxor_assoc, N.lxor_nilpotent. reflexivity.
Qed.
