(** Proofs for C23/C24. *)
From Verif Require Import Base Bytes U128Model U128Spec.
Local Open Scope N_scope.

Definition val (a : u128) : N := UPPER a * W64 + LOWER a.
Definition wf (a : u128) : Prop := UPPER a < W64 /\ LOWER a < W64.

Lemma wf_bound a : wf a -> val a < W128.
Proof. unfold wf, val. lia. Qed.
Lemma val_inj a b : wf a -> wf b -> val a = val b -> a = b.
Proof. destruct a, b; unfold wf, val; cbn. intros. f_equal; lia. Qed.
Lemma wf_of64 x : x < W64 -> wf (of64 x). Proof. unfold wf; cbn; lia. Qed.
Lemma val_of64 x : val (of64 x) = x. Proof. unfold val; cbn; lia. Qed.

Lemma shr64_div x s : shr64 x s = x / 2 ^ s.
Proof. apply N.shiftr_div_pow2. Qed.
Lemma shl64_mul x s : shl64 x s = (x * 2 ^ s) mod W64.
Proof. unfold shl64. now rewrite N.shiftl_mul_pow2. Qed.

Lemma op_add_ok a b : wf a -> wf b -> wf (op_add a b) /\ val (op_add a b) = (val a + val b) mod W128.
Proof.
  destruct a as [au al], b as [bu bl]; unfold wf, val, op_add, add64, b2n; cbn [UPPER LOWER]; intros [] [].
  destruct ((al + bl) mod W64 <? al) eqn:E; split; try split; lia.
Qed.
Lemma op_sub_ok a b : wf a -> wf b -> wf (op_sub a b) /\ val (op_sub a b) = (val a + W128 - val b) mod W128.
Proof.
  destruct a as [au al], b as [bu bl]; unfold wf, val, op_sub, sub64, b2n; cbn [UPPER LOWER]; intros [] [].
  destruct (al <? (al + (W64 - bl)) mod W64) eqn:E; split; try split; lia.
Qed.
Lemma op_not_ok a : wf a -> wf (op_not a) /\ val (op_not a) = W128 - 1 - val a.
Proof. destruct a; unfold wf, val, op_not; cbn. lia. Qed.

Lemma op_eq_ok a b : wf a -> wf b -> op_eq a b = (val a =? val b).
Proof. destruct a, b; unfold wf, val, op_eq; cbn. lia. Qed.
Lemma op_ne_ok a b : wf a -> wf b -> op_ne a b = negb (val a =? val b).
Proof. destruct a, b; unfold wf, val, op_ne; cbn. lia. Qed.
Lemma op_lt_ok a b : wf a -> wf b -> op_lt a b = (val a <? val b).
Proof. destruct a as [x y], b as [z w]; unfold wf, val, op_lt; cbn. destruct (x =? z) eqn:E; lia. Qed.
Lemma op_gt_ok a b : wf a -> wf b -> op_gt a b = (val b <? val a).
Proof. destruct a as [x y], b as [z w]; unfold wf, val, op_gt; cbn. destruct (x =? z) eqn:E; lia. Qed.
Lemma op_ge_ok a b : wf a -> wf b -> op_ge a b = (val b <=? val a).
Proof. intros. unfold op_ge. rewrite op_gt_ok, op_eq_ok by assumption. lia. Qed.
Lemma op_le_ok a b : wf a -> wf b -> op_le a b = (val a <=? val b).
Proof. intros. unfold op_le. rewrite op_lt_ok, op_eq_ok by assumption. lia. Qed.

Lemma to_bool_ok a : to_bool a = negb (val a =? 0).
Proof.
  destruct a as [x y]; unfold to_bool, val; cbn.
  destruct (N.lor x y =? 0) eqn:E.
  - apply N.eqb_eq, N.lor_eq_0_iff in E. lia.
  - apply N.eqb_neq in E. symmetry; apply negb_true_iff, N.eqb_neq. intros H; apply E.
    assert (x = 0 /\ y = 0) as [-> ->] by lia. reflexivity.
Qed.

(** Shifts. *)
Lemma pow_split s : s <= 64 -> 2 ^ s * 2 ^ (64 - s) = W64.
Proof. intros. rewrite <- N.pow_add_r. replace (s + (64 - s)) with 64 by lia. reflexivity. Qed.
Lemma pow2_nz s : 2 ^ s <> 0. Proof. apply N.pow_nonzero. lia. Qed.

(** Core arithmetic facts, with 2^64 = P * Q and all quotients named. *)
Lemma euclid x Q : Q <> 0 -> exists a b, x = Q * a + b /\ b < Q.
Proof. intros H. exists (x / Q), (x mod Q). split; [apply N.div_mod|apply N.mod_lt]; assumption. Qed.
Lemma mul_bound d Q P a : d < Q -> a < P -> d * P + a < Q * P.
Proof. intros. apply N.lt_le_trans with (d * P + P); [lia|]. replace (d * P + P) with ((d + 1) * P) by ring. apply N.mul_le_mono_r. lia. Qed.
Lemma quot_lt Q P a b : Q * a + b < Q * P -> a < P.
Proof. intros H. destruct (N.lt_ge_cases a P) as [|G]; [assumption|]. apply (N.mul_le_mono_l _ _ Q) in G. lia. Qed.

Lemma shl_core P Q u l W : P * Q = W -> W <> 0 -> u < W -> l < W ->
  ((u * P) mod W + l / Q) mod W * W + (l * P) mod W = ((u * W + l) * P) mod (W * W).
Proof.
  intros HPQ HW Hu Hl.
  assert (Pp : P <> 0) by (intros ->; apply HW; rewrite <- HPQ; reflexivity).
  assert (Qp : Q <> 0) by (intros ->; apply HW; rewrite <- HPQ; ring).
  destruct (euclid l Q Qp) as (a & b & -> & Hb). destruct (euclid u Q Qp) as (c & d & -> & Hd).
  subst W.
  assert (Ha : a < P) by (apply (quot_lt Q P a b); rewrite (N.mul_comm Q P); assumption).
  assert (Hc : c < P) by (apply (quot_lt Q P c d); rewrite (N.mul_comm Q P); assumption).
  replace (((Q * c + d) * P) mod (P * Q)) with (d * P).
  2:{ apply N.mod_unique with (q := c); [|ring]. pose proof (mul_bound d Q P 0 Hd ltac:(lia)). lia. }
  replace (((Q * a + b) * P) mod (P * Q)) with (b * P).
  2:{ apply N.mod_unique with (q := a); [|ring]. pose proof (mul_bound b Q P 0 Hb ltac:(lia)). lia. }
  replace ((Q * a + b) / Q) with a by (apply N.div_unique with (r := b); lia).
  pose proof (mul_bound d Q P a Hd Ha) as B1. rewrite (N.mul_comm Q P) in B1.
  rewrite (N.mod_small (d * P + a)) by assumption.
  apply N.mod_unique with (q := c); [|ring].
  apply mul_bound; [assumption|]. pose proof (mul_bound b Q P 0 Hb ltac:(lia)). lia.
Qed.
Lemma shr_core P Q u l W : P * Q = W -> W <> 0 -> u < W -> l < W ->
  u / P * W + ((u * Q) mod W + l / P) mod W = (u * W + l) / P.
Proof.
  intros HPQ HW Hu Hl.
  assert (Pp : P <> 0) by (intros ->; apply HW; rewrite <- HPQ; reflexivity).
  assert (Qp : Q <> 0) by (intros ->; apply HW; rewrite <- HPQ; ring).
  destruct (euclid l P Pp) as (a & b & -> & Hb). destruct (euclid u P Pp) as (c & d & -> & Hd).
  subst W.
  assert (Ha : a < Q) by (apply (quot_lt P Q a b); assumption).
  replace (((P * c + d) * Q) mod (P * Q)) with (d * Q).
  2:{ apply N.mod_unique with (q := c); [|ring]. pose proof (mul_bound d P Q 0 Hd ltac:(lia)). lia. }
  replace ((P * a + b) / P) with a by (apply N.div_unique with (r := b); lia).
  replace ((P * c + d) / P) with c by (apply N.div_unique with (r := d); lia).
  pose proof (mul_bound d P Q a Hd Ha) as B1.
  rewrite (N.mod_small (d * Q + a)) by assumption.
  apply N.div_unique with (r := b); [assumption|ring].
Qed.

Lemma op_shl_ok a s : wf a -> wf s ->
  wf (op_shl a s) /\ val (op_shl a s) = (val a * 2 ^ N.min 128 (val s)) mod W128.
Proof.
  destruct a as [u l], s as [su sl]; unfold wf, val, op_shl; cbn [UPPER LOWER]; intros [Hu Hl] [Hsu Hsl].
  destruct (negb (su =? 0) || (128 <=? sl)) eqn:E1.
  { unfold uint128_0, of64; cbn [UPPER LOWER]. split; [lia|].
    replace (N.min 128 (su * W64 + sl)) with 128 by lia.
    change (2 ^ 128) with W128. rewrite N.mod_mul; lia. }
  assert (su = 0) by lia. subst su. assert (sl < 128) by lia.
  replace (N.min 128 (0 * W64 + sl)) with sl by lia.
  destruct (sl =? 64) eqn:E2.
  { assert (sl = 64) by lia. subst. cbn [UPPER LOWER]. change (2 ^ 64) with W64. split; lia. }
  destruct (sl =? 0) eqn:E3.
  { assert (sl = 0) by lia. subst. cbn [UPPER LOWER]. change (2 ^ 0) with 1. split; lia. }
  destruct (sl <? 64) eqn:E4.
  { cbn [UPPER LOWER]. rewrite !shl64_mul, shr64_div. unfold add64. split; [lia|].
    change W128 with (W64 * W64). apply shl_core; [apply pow_split; lia|lia|lia|lia]. }
  destruct ((sl <? 128) && (64 <? sl)) eqn:E5; [|lia].
  cbn [UPPER LOWER]. rewrite shl64_mul. split; [lia|].
  replace (2 ^ sl) with (2 ^ (sl - 64) * W64).
  2:{ rewrite <- pow2_64, <- N.pow_add_r. f_equal; lia. }
  set (P := 2 ^ (sl - 64)).
  replace ((u * W64 + l) * (P * W64)) with (l * P * W64 + u * P * W128) by lia.
  rewrite N.mod_add by lia.
  pose proof (N.div_mod (l * P) W64 ltac:(lia)). pose proof (N.mod_lt (l * P) W64 ltac:(lia)).
  set (q := l * P / W64) in *. set (r := (l * P) mod W64) in *.
  rewrite H0. replace ((W64 * q + r) * W64) with (r * W64 + q * W128) by lia.
  rewrite N.mod_add by lia. rewrite N.mod_small by lia. lia.
Qed.

Lemma op_shr_ok a s : wf a -> wf s ->
  wf (op_shr a s) /\ val (op_shr a s) = val a / 2 ^ N.min 128 (val s).
Proof.
  destruct a as [u l], s as [su sl]; unfold wf, val, op_shr; cbn [UPPER LOWER]; intros [Hu Hl] [Hsu Hsl].
  destruct (negb (su =? 0) || (128 <=? sl)) eqn:E1.
  { unfold uint128_0, of64; cbn [UPPER LOWER]. split; [lia|].
    replace (N.min 128 (su * W64 + sl)) with 128 by lia.
    change (2 ^ 128) with W128. rewrite N.div_small; lia. }
  assert (su = 0) by lia. subst su. assert (sl < 128) by lia.
  replace (N.min 128 (0 * W64 + sl)) with sl by lia.
  destruct (sl =? 64) eqn:E2.
  { assert (sl = 64) by lia. subst. cbn [UPPER LOWER]. change (2 ^ 64) with W64. split; lia. }
  destruct (sl =? 0) eqn:E3.
  { assert (sl = 0) by lia. subst. cbn [UPPER LOWER]. change (2 ^ 0) with 1. split; lia. }
  destruct (sl <? 64) eqn:E4.
  { cbn [UPPER LOWER]. rewrite !shl64_mul, !shr64_div. unfold add64.
    pose proof (N.div_le_upper_bound u (2 ^ sl) u (pow2_nz _)) as Hle.
    assert (u / 2 ^ sl <= u). { apply Hle. pose proof (pow2_nz sl). rewrite <- (N.mul_1_l u) at 1. apply N.mul_le_mono_r. lia. }
    split; [lia|].
    apply shr_core; [apply pow_split; lia|lia|lia|lia]. }
  destruct ((sl <? 128) && (64 <? sl)) eqn:E5; [|lia].
  cbn [UPPER LOWER]. rewrite shr64_div.
  set (P := 2 ^ (sl - 64)). assert (P <> 0) by apply pow2_nz.
  replace (2 ^ sl) with (W64 * P).
  2:{ unfold P. rewrite <- pow2_64, <- N.pow_add_r. f_equal; lia. }
  assert (u / P <= u). { apply N.div_le_upper_bound; [assumption|]. rewrite <- (N.mul_1_l u) at 1. apply N.mul_le_mono_r. lia. }
  split; [lia|].
  rewrite <- N.div_div by lia. replace ((u * W64 + l) / W64) with u by lia. lia.
Qed.

(** Multiplication. *)
Lemma mask32_mod x : mask32 x = x mod W32.
Proof. unfold mask32. change 4294967295 with (N.ones 32). rewrite N.land_ones. reflexivity. Qed.
Lemma hi32_div x : hi32 x = x / W32.
Proof. unfold hi32. rewrite shr64_div. reflexivity. Qed.
Lemma lor_shl x y : x < W32 -> y < W32 -> N.lor (shl64 x 32) y = x * W32 + y.
Proof.
  intros. unfold shl64. rewrite N.shiftl_mul_pow2. change (2 ^ 32) with W32.
  rewrite N.mod_small by lia.
  replace (x * W32) with (N.shiftl x 32) by (rewrite N.shiftl_mul_pow2; reflexivity).
  assert (D : N.land (N.shiftl x 32) y = 0).
  { apply N.bits_inj_0. intros n. rewrite N.land_spec. destruct (N.lt_ge_cases n 32).
    - rewrite N.shiftl_spec_low by assumption. reflexivity.
    - destruct (N.eq_dec y 0) as [->|]; [rewrite N.bits_0, andb_false_r; reflexivity|].
      rewrite (N.bits_above_log2 y n), andb_false_r; [reflexivity|].
      apply N.lt_le_trans with 32; [|assumption]. apply N.log2_lt_pow2; [lia|exact H0]. }
  rewrite <- N.lxor_lor by assumption. rewrite <- N.add_nocarry_lxor by assumption. reflexivity.
Qed.

(** The digit sum of schoolbook multiplication in base B. *)
Lemma digits_core B p00 p01 p02 p03 p11 p12 p13 p22 p23 p33 : B <> 0 ->
  let f4 := p03 mod B in
  let t3 := p02 mod B + p03/B + p13 mod B in
  let s2 := p01 mod B + p02/B + (p12 mod B + p13/B) + p23 mod B in
  let f1 := p00 mod B + p01/B + (p11 mod B + p12/B) + (p22 mod B + p23/B) + p33 mod B in
  let s2' := s2 + t3/B in
  let f1' := f1 + s2'/B in
  ((f1' mod B) * B + s2' mod B) * (B * B) + ((t3 mod B) * B + f4)
   = ((p00 + p11 + p22 + p33) * (B * B * B) + (p01 + p12 + p23) * (B * B) + (p02 + p13) * B + p03) mod (B * B * (B * B)).
Proof.
  intros HB f4 t3 s2 f1 s2' f1'.
  assert (E : forall x, x = B * (x / B) + x mod B) by (intro; apply N.div_mod; assumption).
  assert (L : forall x, x mod B < B) by (intro; apply N.mod_lt; assumption).
  pose proof (E t3) as Et. pose proof (E s2') as Es. pose proof (E f1') as Ef.
  pose proof (L t3) as Lt. pose proof (L s2') as Ls. pose proof (L f1') as Lf. pose proof (L p03) as L4. fold f4 in L4.
  apply N.mod_unique with (q := f1' / B + (p00 / B + p11 / B + p22 / B + p33 / B)).
  - apply mul_bound; [apply mul_bound; assumption|apply mul_bound; assumption].
  - rewrite (E p00) at 1. rewrite (E p01) at 1. rewrite (E p02) at 1. rewrite (E p03) at 1.
    rewrite (E p11) at 1. rewrite (E p12) at 1. rewrite (E p13) at 1. rewrite (E p22) at 1.
    rewrite (E p23) at 1. rewrite (E p33) at 1. fold f4.
    transitivity (f4 + B * t3 + B * B * s2 + B * B * B * f1 + B * B * (B * B) * (p00 / B + p11 / B + p22 / B + p33 / B)).
    { unfold t3, s2, f1. ring. }
    transitivity (f4 + B * (t3 mod B) + B * B * s2' + B * B * B * f1 + B * B * (B * B) * (p00 / B + p11 / B + p22 / B + p33 / B)).
    { unfold s2'. rewrite Et at 1. ring. }
    transitivity (f4 + B * (t3 mod B) + B * B * (s2' mod B) + B * B * B * f1' + B * B * (B * B) * (p00 / B + p11 / B + p22 / B + p33 / B)).
    { unfold f1'. rewrite Es at 1. ring. }
    rewrite Ef at 1. ring.
Qed.

Lemma mul_core B a0 a1 a2 a3 b0 b1 b2 b3 : B <> 0 ->
  let p00 := a3*b0 in let p01 := a3*b1 in let p02 := a3*b2 in let p03 := a3*b3 in
  let p11 := a2*b1 in let p12 := a2*b2 in let p13 := a2*b3 in
  let p22 := a1*b2 in let p23 := a1*b3 in let p33 := a0*b3 in
  ((p00 + p11 + p22 + p33) * (B * B * B) + (p01 + p12 + p23) * (B * B) + (p02 + p13) * B + p03) mod (B * B * (B * B))
   = (((a0*B+a1)*(B*B) + (a2*B+a3)) * ((b0*B+b1)*(B*B) + (b2*B+b3))) mod (B * B * (B * B)).
Proof.
  intros HB p00 p01 p02 p03 p11 p12 p13 p22 p23 p33.
  replace (((a0*B+a1)*(B*B) + (a2*B+a3)) * ((b0*B+b1)*(B*B) + (b2*B+b3)))
    with ((p00 + p11 + p22 + p33) * (B*B*B) + (p01 + p12 + p23) * (B*B) + (p02 + p13) * B + p03
          + (a0*b0*(B*B) + (a0*b1+a1*b0)*B + (a0*b2+a1*b1+a2*b0)) * (B*B*(B*B)))
    by (subst p00 p01 p02 p03 p11 p12 p13 p22 p23 p33; ring).
  rewrite N.mod_add; [reflexivity|]. intros E. repeat (apply N.eq_mul_0 in E; destruct E as [E|E]; try contradiction).
Qed.

Lemma prod32 x y : x < W32 -> y < W32 -> x * y <= (W32 - 1) * (W32 - 1).
Proof. intros. apply N.mul_le_mono; lia. Qed.
Lemma hi_lt x : x < W64 -> x / W32 < W32. Proof. lia. Qed.
Lemma mod_lt32 x : x mod W32 < W32. Proof. lia. Qed.
Lemma p_hi x : x <= (W32 - 1) * (W32 - 1) -> x / W32 < W32. Proof. lia. Qed.

Lemma op_mul_ok a b : wf a -> wf b -> wf (op_mul a b) /\ val (op_mul a b) = (val a * val b) mod W128.
Proof.
  destruct a as [au al], b as [bu bl]; unfold wf, val; cbn [UPPER LOWER]; intros [Hau Hal] [Hbu Hbl].
  unfold op_mul; cbn [UPPER LOWER].
  set (a0 := hi32 au). set (a1 := mask32 au). set (a2 := hi32 al). set (a3 := mask32 al).
  set (b0 := hi32 bu). set (b1 := mask32 bu). set (b2 := hi32 bl). set (b3 := mask32 bl).
  assert (A0 : a0 < W32) by (unfold a0; rewrite hi32_div; apply hi_lt; assumption).
  assert (A2 : a2 < W32) by (unfold a2; rewrite hi32_div; apply hi_lt; assumption).
  assert (B0 : b0 < W32) by (unfold b0; rewrite hi32_div; apply hi_lt; assumption).
  assert (B2 : b2 < W32) by (unfold b2; rewrite hi32_div; apply hi_lt; assumption).
  assert (A1 : a1 < W32) by (unfold a1; rewrite mask32_mod; apply mod_lt32).
  assert (A3 : a3 < W32) by (unfold a3; rewrite mask32_mod; apply mod_lt32).
  assert (B1 : b1 < W32) by (unfold b1; rewrite mask32_mod; apply mod_lt32).
  assert (B3 : b3 < W32) by (unfold b3; rewrite mask32_mod; apply mod_lt32).
  assert (Ea : forall x, x = hi32 x * W32 + mask32 x) by (intro; rewrite hi32_div, mask32_mod; lia).
  replace (au * W64 + al) with ((a0*W32+a1)*(W32*W32) + (a2*W32+a3)).
  2:{ unfold a0, a1, a2, a3. rewrite <- !Ea. reflexivity. }
  replace (bu * W64 + bl) with ((b0*W32+b1)*(W32*W32) + (b2*W32+b3)).
  2:{ unfold b0, b1, b2, b3. rewrite <- !Ea. reflexivity. }
  change W128 with (W32*W32*(W32*W32)).
  rewrite <- (mul_core W32 a0 a1 a2 a3 b0 b1 b2 b3) by lia.
  clearbody a0 a1 a2 a3 b0 b1 b2 b3.
  pose proof (prod32 a3 b0 A3 B0) as P00. pose proof (prod32 a3 b1 A3 B1) as P01.
  pose proof (prod32 a3 b2 A3 B2) as P02. pose proof (prod32 a3 b3 A3 B3) as P03.
  pose proof (prod32 a2 b1 A2 B1) as P11. pose proof (prod32 a2 b2 A2 B2) as P12.
  pose proof (prod32 a2 b3 A2 B3) as P13. pose proof (prod32 a1 b2 A1 B2) as P22.
  pose proof (prod32 a1 b3 A1 B3) as P23. pose proof (prod32 a0 b3 A0 B3) as P33.
  rewrite !mul64_small by lia.
  set (p00 := a3*b0) in *. set (p01 := a3*b1) in *. set (p02 := a3*b2) in *. set (p03 := a3*b3) in *.
  set (p11 := a2*b1) in *. set (p12 := a2*b2) in *. set (p13 := a2*b3) in *. set (p22 := a1*b2) in *.
  set (p23 := a1*b3) in *. set (p33 := a0*b3) in *.
  clearbody p00 p01 p02 p03 p11 p12 p13 p22 p23 p33.
  rewrite <- (digits_core W32) by lia. rewrite !mask32_mod, !hi32_div.
  pose proof (p_hi _ P00) as Q00. pose proof (p_hi _ P01) as Q01. pose proof (p_hi _ P02) as Q02. pose proof (p_hi _ P03) as Q03.
  pose proof (p_hi _ P11) as Q11. pose proof (p_hi _ P12) as Q12. pose proof (p_hi _ P13) as Q13.
  pose proof (p_hi _ P22) as Q22. pose proof (p_hi _ P23) as Q23. pose proof (p_hi _ P33) as Q33.
  pose proof (mod_lt32 p00) as R00. pose proof (mod_lt32 p01) as R01. pose proof (mod_lt32 p02) as R02. pose proof (mod_lt32 p03) as R03.
  pose proof (mod_lt32 p11) as R11. pose proof (mod_lt32 p12) as R12. pose proof (mod_lt32 p13) as R13.
  pose proof (mod_lt32 p22) as R22. pose proof (mod_lt32 p23) as R23. pose proof (mod_lt32 p33) as R33.
  replace (p03 mod W32 / W32) with 0 by (symmetry; apply N.div_small; assumption).
  set (m00 := p00 mod W32) in *. set (m01 := p01 mod W32) in *. set (m02 := p02 mod W32) in *. set (m03 := p03 mod W32) in *.
  set (m11 := p11 mod W32) in *. set (m12 := p12 mod W32) in *. set (m13 := p13 mod W32) in *. set (m22 := p22 mod W32) in *.
  set (m23 := p23 mod W32) in *. set (m33 := p33 mod W32) in *.
  set (h00 := p00 / W32) in *. set (h01 := p01 / W32) in *. set (h02 := p02 / W32) in *. set (h03 := p03 / W32) in *.
  set (h11 := p11 / W32) in *. set (h12 := p12 / W32) in *. set (h13 := p13 / W32) in *. set (h22 := p22 / W32) in *.
  set (h23 := p23 / W32) in *. set (h33 := p33 / W32) in *.
  clearbody m00 m01 m02 m03 m11 m12 m13 m22 m23 m33 h00 h01 h02 h03 h11 h12 h13 h22 h23 h33.
  rewrite (add64_small m02 h03) by lia. rewrite (add64_small m01 h02) by lia.
  rewrite (add64_small m00 h01) by lia. rewrite (add64_small m12 h13) by lia.
  rewrite (add64_small m11 h12) by lia. rewrite (add64_small m22 h23) by lia.
  rewrite (add64_small (m02 + h03) m13) by lia.
  rewrite (add64_small (m01 + h02)) by lia. rewrite (add64_small (m00 + h01)) by lia.
  rewrite (add64_small (m01 + h02 + (m12 + h13)) m23) by lia.
  rewrite (add64_small (m00 + h01 + (m11 + h12))) by lia.
  rewrite (add64_small (m00 + h01 + (m11 + h12) + (m22 + h23)) m33) by lia.
  rewrite (add64_small _ 0) by lia. rewrite N.add_0_r.
  set (t3 := m02 + h03 + m13). assert (t3 < W64) by (unfold t3; lia).
  pose proof (hi_lt t3 H) as T3.
  set (s2 := m01 + h02 + (m12 + h13) + m23). assert (s2 < 5 * W32) by (unfold s2; lia).
  set (f1 := m00 + h01 + (m11 + h12) + (m22 + h23) + m33). assert (f1 < 7 * W32) by (unfold f1; lia).
  rewrite (add64_small s2) by lia.
  set (s2' := s2 + t3 / W32). assert (s2' < W64) by (unfold s2'; lia).
  pose proof (hi_lt s2' H2) as S2.
  rewrite (add64_small f1) by lia.
  rewrite !lor_shl by (first [apply mod_lt32 | assumption | lia]).
  rewrite (N.mod_small m03) by assumption.
  change W64 with (W32 * W32).
  split; [|reflexivity].
  split; (apply mul_bound; [apply mod_lt32|first [apply mod_lt32|assumption]]).
Qed.

(** Bit length. *)
Lemma bits_loop_zero f out : bits_loop f 0 out = out. Proof. destruct f; reflexivity. Qed.
Lemma bits_loop_ok f w out : w < 2 ^ N.of_nat f -> out + N.of_nat f < 256 ->
  bits_loop f w out = out + N.size w.
Proof.
  revert w out; induction f as [|f IH]; intros w out Hw Ho.
  { change (2 ^ N.of_nat 0) with 1 in Hw. assert (w = 0) by lia. subst. cbn. lia. }
  cbn [bits_loop]. destruct (w =? 0) eqn:E. { assert (w = 0) by lia. subst. cbn [N.size]. lia. }
  rewrite N.mod_small by lia. rewrite shr64_div. change (2 ^ 1) with 2.
  rewrite Nat2N.inj_succ, N.pow_succ_r in Hw by lia.
  rewrite IH by lia.
  assert (N.size w = N.succ (N.size (w / 2))).
  { rewrite <- N.div2_div. destruct w as [|[p|p|]]; cbn; try lia; reflexivity. }
  lia.
Qed.
(** More fuel than 64 iterations changes nothing: the loop has terminated. *)
Lemma bits_loop_fuel f w out : w < W64 -> (64 <= f)%nat -> (f <= 100)%nat -> out <= 64 ->
  bits_loop f w out = bits_loop 65 w out.
Proof.
  intros Hw Hf Hf' Ho. rewrite !bits_loop_ok; [reflexivity| | | |]; try lia.
  - apply N.lt_le_trans with (2 ^ 64); [exact Hw|]. apply N.pow_le_mono_r; lia.
Qed.
Lemma size_hi u l : u <> 0 -> l < W64 -> N.size (u * W64 + l) = 64 + N.size u.
Proof.
  intros Hu Hl. rewrite !N.size_log2 by lia.
  replace (N.log2 (u * W64 + l)) with (64 + N.log2 u); [lia|].
  symmetry. apply N.log2_unique; [lia|].
  pose proof (N.log2_spec u ltac:(lia)) as [L1 L2].
  rewrite <- N.add_succ_r, !N.pow_add_r. change (2 ^ 64) with W64.
  split; [|].
  - apply N.le_trans with (W64 * u); [apply N.mul_le_mono_l; assumption|lia].
  - apply N.lt_le_trans with (W64 * (u + 1)); [lia|]. apply N.mul_le_mono_l. lia.
Qed.
Lemma bits_ok a : wf a -> bits a = N.size (val a).
Proof.
  destruct a as [u l]; unfold wf, bits, val; cbn [UPPER LOWER]; intros [Hu Hl].
  assert (P : W64 < 2 ^ N.of_nat 65) by reflexivity.
  destruct (u =? 0) eqn:E; cbn [negb].
  - assert (u = 0) by lia. subst. rewrite bits_loop_ok by lia. rewrite N.mul_0_l, !N.add_0_l. reflexivity.
  - rewrite bits_loop_ok by lia. rewrite size_hi by lia. reflexivity.
Qed.

(** Division. *)
Lemma land1 x : N.land x 1 = x mod 2.
Proof. change 1 with (N.ones 1). rewrite N.land_ones. reflexivity. Qed.
Lemma val_wf_mk a : val a = UPPER a * W64 + LOWER a. Proof. reflexivity. Qed.

Lemma divmod_step_ok lhs rhs x qr :
  wf lhs -> wf rhs -> val rhs <> 0 -> 0 < x -> x <= 128 ->
  wf (fst qr) -> wf (snd qr) ->
  val (fst qr) = (val lhs / 2 ^ x) / val rhs -> val (snd qr) = (val lhs / 2 ^ x) mod val rhs ->
  let qr' := divmod_step lhs rhs x qr in
  wf (fst qr') /\ wf (snd qr') /\
  val (fst qr') = (val lhs / 2 ^ (x - 1)) / val rhs /\ val (snd qr') = (val lhs / 2 ^ (x - 1)) mod val rhs.
Proof.
  intros Wl Wr Hr Hx Hx' Wq Ws Eq Er.
  pose proof (wf_bound _ Wl) as Bl. pose proof (wf_bound _ Wr) as Br.
  set (L := val lhs / 2 ^ (x - 1)).
  assert (E2 : val lhs / 2 ^ x = L / 2).
  { unfold L. rewrite N.div_div; [|apply pow2_nz|lia]. f_equal.
    replace x with (N.succ (x - 1)) at 1 by lia. rewrite N.pow_succ_r'. ring. }
  rewrite E2 in Eq, Er. clear E2.
  assert (HL : L < W128).
  { apply N.le_lt_trans with (val lhs); [|assumption]. apply N.div_le_upper_bound; [apply pow2_nz|].
    pose proof (pow2_nz (x - 1)). rewrite <- (N.mul_1_l (val lhs)) at 1. apply N.mul_le_mono_r. lia. }
  destruct (op_shr_ok lhs (of64 (x - 1)) Wl (wf_of64 (x - 1) ltac:(clear - Hx'; lia))) as [Wsh Vsh].
  rewrite val_of64 in Vsh. replace (N.min 128 (x - 1)) with (x - 1) in Vsh by (clear - Hx'; lia). fold L in Vsh.
  assert (Ebit : val (mk128 0 (N.land (LOWER (op_shr lhs (of64 (x - 1)))) 1)) = L mod 2).
  { rewrite land1. unfold val at 1; cbn [UPPER LOWER]. rewrite val_wf_mk in Vsh. rewrite <- Vsh. destruct Wsh as [_ Wsh].
    clear - Wsh. lia. }
  pose proof (N.div_mod (L / 2) (val rhs) Hr) as DM. pose proof (N.mod_lt (L / 2) (val rhs) Hr) as ML.
  rewrite <- Eq, <- Er in DM. rewrite <- Er in ML. clear Eq Er.
  pose proof (N.div_mod L 2 ltac:(lia)) as D2. pose proof (N.mod_lt L 2 ltac:(lia)) as M2.
  unfold divmod_step. rewrite to_bool_ok, Ebit. clear Ebit Vsh Wsh Bl.
  set (b := L mod 2) in *. set (h := L / 2) in *. clearbody b h. clearbody L. clear x Hx Hx'.
  set (q := val (fst qr)) in *. set (r := val (snd qr)) in *.
  assert (Hq : q <= h). { rewrite DM. rewrite <- (N.mul_1_l q) at 1. apply N.le_trans with (val rhs * q); [apply N.mul_le_mono_r; lia|lia]. }
  assert (Hrr : r <= h) by (clear - DM; lia).
  destruct (op_shl_ok (fst qr) uint128_1 Wq (wf_of64 1 ltac:(lia))) as [Wq2 Vq2].
  destruct (op_shl_ok (snd qr) uint128_1 Ws (wf_of64 1 ltac:(lia))) as [Wr2 Vr2].
  fold q in Vq2. fold r in Vr2. unfold uint128_1 in Vq2, Vr2. rewrite val_of64 in Vq2, Vr2.
  change (N.min 128 1) with 1 in Vq2, Vr2. change (2 ^ 1) with 2 in Vq2, Vr2.
  rewrite N.mod_small in Vq2 by (clear - Hq D2 HL; lia). rewrite N.mod_small in Vr2 by (clear - Hrr D2 HL; lia).
  fold uint128_1 in Vq2, Vr2.
  set (q2 := op_shl (fst qr) uint128_1) in *. set (r2 := op_shl (snd qr) uint128_1) in *.
  clearbody q2 r2. clearbody q r. clear Wq Ws qr.
  set (r3 := if negb (b =? 0) then op_add r2 uint128_1 else r2).
  assert (W3 : wf r3 /\ val r3 = 2 * r + b).
  { unfold r3. destruct (b =? 0) eqn:E; cbn [negb].
    - split; [assumption|]. lia.
    - destruct (op_add_ok r2 uint128_1 Wr2 (wf_of64 1 ltac:(lia))) as [Wa Va]. split; [assumption|].
      rewrite Va. unfold uint128_1. rewrite val_of64. rewrite N.mod_small by (clear - Vr2 Hrr D2 HL E M2; lia).
      clear - Vr2 E M2. lia. }
  destruct W3 as [W3 V3]. clearbody r3.
  rewrite op_ge_ok by assumption.
  assert (DL : L = val rhs * (2 * q) + val r3).
  { rewrite V3, D2, DM. ring. }
  destruct (val rhs <=? val r3) eqn:G; cbn [fst snd].
  - destruct (op_add_ok q2 uint128_1 Wq2 (wf_of64 1 ltac:(lia))) as [Wa Va].
    destruct (op_sub_ok r3 rhs W3 Wr) as [Wb Vb].
    pose proof (wf_bound _ W3) as B3.
    unfold uint128_1 in Va. rewrite val_of64 in Va. fold uint128_1 in Va. rewrite Vq2 in Va.
    assert (LT : val r3 - val rhs < val rhs) by (clear - V3 ML M2; lia).
    assert (DL' : L = val rhs * (q * 2 + 1) + (val r3 - val rhs)).
    { rewrite N.mul_add_distr_l, N.mul_1_r, (N.mul_comm q 2). clear - DL G. lia. }
    assert (Hq1 : q * 2 + 1 <= L).
    { rewrite DL'. apply N.le_trans with (val rhs * (q * 2 + 1)); [|lia].
      rewrite <- (N.mul_1_l (q * 2 + 1)) at 1. apply N.mul_le_mono_r. clear - Hr. lia. }
    rewrite N.mod_small in Va by (clear - Hq1 HL; lia).
    assert (Vb' : val (op_sub r3 rhs) = val r3 - val rhs) by (rewrite Vb; clear - G B3 Br; lia).
    split; [assumption|]. split; [assumption|]. rewrite Va, Vb'.
    split; [apply N.div_unique with (r := val r3 - val rhs); assumption|
            apply N.mod_unique with (q := q * 2 + 1); assumption].
  - split; [assumption|]. split; [assumption|]. rewrite Vq2, (N.mul_comm q 2).
    assert (LT : val r3 < val rhs) by (clear - G; lia).
    split; [apply N.div_unique with (r := val r3); assumption|
            apply N.mod_unique with (q := 2 * q); assumption].
Qed.

Lemma divmod_loop_ok lhs rhs n qr :
  wf lhs -> wf rhs -> val rhs <> 0 -> (n <= 128)%nat ->
  wf (fst qr) -> wf (snd qr) ->
  val (fst qr) = (val lhs / 2 ^ N.of_nat n) / val rhs -> val (snd qr) = (val lhs / 2 ^ N.of_nat n) mod val rhs ->
  let qr' := divmod_loop lhs rhs n qr in
  wf (fst qr') /\ wf (snd qr') /\ val (fst qr') = val lhs / val rhs /\ val (snd qr') = val lhs mod val rhs.
Proof.
  intros Wl Wr Hr. revert qr; induction n as [|n IH]; intros qr Hn Wq Ws Eq Er.
  { cbn [divmod_loop]. change (2 ^ N.of_nat 0) with 1 in *. rewrite N.div_1_r in Eq, Er. tauto. }
  cbn [divmod_loop].
  pose proof (divmod_step_ok lhs rhs (N.of_nat (S n)) qr Wl Wr Hr ltac:(lia) ltac:(lia) Wq Ws Eq Er) as H.
  cbv zeta in H. destruct H as (H1 & H2 & H3 & H4).
  replace (N.of_nat (S n) - 1) with (N.of_nat n) in H3, H4 by lia.
  apply IH; try assumption. lia.
Qed.

Lemma divmod_ok a b : wf a -> wf b -> val b <> 0 ->
  exists q r, divmod a b = Ret (q, r) /\ wf q /\ wf r /\ val q = val a / val b /\ val r = val a mod val b.
Proof.
  intros Wa Wb Hb. unfold divmod.
  assert (W0 : wf uint128_0) by (apply wf_of64; lia). assert (W1 : wf uint128_1) by (apply wf_of64; lia).
  assert (V0 : val uint128_0 = 0) by apply val_of64. assert (V1 : val uint128_1 = 1) by apply val_of64.
  rewrite !op_eq_ok, op_lt_ok by assumption. rewrite V0, V1.
  destruct (val b =? 0) eqn:E0; [lia|].
  destruct (val b =? 1) eqn:E1.
  { exists a, uint128_0. assert (Eb : val b = 1) by lia. rewrite Eb, V0, N.div_1_r, N.mod_1_r. repeat split; auto; apply W0 || apply Wa. }
  destruct (val a =? val b) eqn:E2.
  { assert (Ea : val a = val b) by lia. exists uint128_1, uint128_0. rewrite Ea, V0, V1, N.div_same, N.mod_same by assumption.
    repeat split; auto; apply W0 || apply W1. }
  destruct ((val a =? 0) || (val a <? val b)) eqn:E3.
  { exists uint128_0, a. rewrite V0, N.div_small, N.mod_small by lia. repeat split; auto; apply W0 || apply Wa. }
  pose proof (wf_bound _ Wa) as Ba.
  assert (Hsz : N.size (val a) <= 128).
  { rewrite N.size_log2 by lia. assert (N.log2 (val a) < 128) by (apply N.log2_lt_pow2; [lia|exact Ba]). lia. }
  pose proof (divmod_loop_ok a b (N.to_nat (bits a)) (uint128_0, uint128_0) Wa Wb Hb) as H.
  cbn [fst snd] in H. cbv zeta in H. rewrite bits_ok in * by assumption.
  rewrite N2Nat.id in H. rewrite (N.div_small (val a) (2 ^ N.size (val a))) in H by apply N.size_gt.
  rewrite V0, N.div_0_l, N.mod_0_l in H by assumption.
  specialize (H ltac:(lia) W0 W0 eq_refl eq_refl).
  destruct H as (H1 & H2 & H3 & H4).
  eexists _, _. split; [rewrite <- surjective_pairing; reflexivity|]. tauto.
Qed.
Lemma divmod_zero a b : wf b -> val b = 0 -> divmod a b = Throw.
Proof.
  intros Wb H. unfold divmod. rewrite op_eq_ok; [|assumption|apply wf_of64; lia].
  unfold uint128_0. rewrite val_of64, H. reflexivity.
Qed.

(** Difficulty. *)
Lemma le_value_app l b : le_value (l ++ [b]) = le_value l + 256 ^ N.of_nat (length l) * b.
Proof.
  induction l as [|x l IH]; cbn [app le_value length].
  { change (256 ^ N.of_nat 0) with 1. lia. }
  rewrite IH, Nat2N.inj_succ, N.pow_succ_r'. ring.
Qed.
Lemma le_value_rev l : le_value (rev l) = be_value l.
Proof.
  induction l as [|x l IH] using rev_ind; [reflexivity|].
  rewrite rev_app_distr. cbn [rev app le_value]. rewrite IH, be_value_app. ring.
Qed.
Lemma difficulty_ok s hash8 : s < W64 -> is_bytes hash8 -> length hash8 = 8%nat ->
  GetMaximumDifficulty s hash8 = Ret (difficulty_spec s (be_value hash8)).
Proof.
  intros Hs Hb Hl. unfold GetMaximumDifficulty, difficulty_spec. cbv zeta. rewrite le_value_rev.
  pose proof (be_value_bound _ Hb) as Bd. rewrite Hl in Bd. change (256 ^ N.of_nat 8) with W64 in Bd.
  set (h := N.max 1 (be_value hash8)). assert (Hh : 0 < h < W64) by (unfold h; lia).
  destruct (op_shl_ok (of64 s) (of64 64) (wf_of64 s Hs) (wf_of64 64 ltac:(lia))) as [W1 V1].
  rewrite !val_of64 in V1. change (N.min 128 64) with 64 in V1. change (2 ^ 64) with W64 in V1. rewrite N.mod_small in V1 by lia.
  destruct (divmod_ok _ (of64 h) W1 (wf_of64 h ltac:(lia))) as (q & r & E & Wq & Wr & Vq & Vr).
  { rewrite val_of64; lia. }
  unfold op_div. rewrite E. cbn [omap obind fst]. rewrite op_lt_ok; [|assumption|apply wf_of64; lia].
  rewrite val_of64. rewrite val_of64, V1 in Vq. rewrite <- Vq.
  destruct (val q <? W64 - 1) eqn:G.
  - unfold to64. destruct Wq. unfold val in *. f_equal. lia.
  - f_equal. lia.
Qed.
Lemma difficulty_antitone s h h' : h <= h' -> difficulty_spec s h' <= difficulty_spec s h.
Proof.
  intros H. unfold difficulty_spec.
  assert (s * W64 / N.max 1 h' <= s * W64 / N.max 1 h); [|lia].
  apply N.div_le_compat_l. lia.
Qed.
