(** C23 and C24. *)
From Verif Require Import Base Bytes U128Model U128Spec U128Proofs.
Local Open Scope N_scope.

(** [a] is a pair of 64-bit halves denoting the number [v] (U128Spec.denotes). *)
Definition is (a : u128) (v : N) : Prop := denotes (UPPER a) (LOWER a) v.

Local Lemma is_iff a v : is a v <-> wf a /\ val a = v.
Proof. unfold is, denotes, wf, val. intuition. Qed.

(** C23: +, -, unary -, ~ are exact modulo 2^128. *)
Theorem C23_add_sub a b x y : is a x -> is b y ->
  is (op_add a b) ((x + y) mod W128) /\ is (op_sub a b) ((x + W128 - y) mod W128) /\
  is (op_not a) (W128 - 1 - x) /\ is (op_neg a) ((W128 - x) mod W128).
Proof.
  rewrite !is_iff. intros [Wa Va] [Wb Vb]. rewrite <- Va, <- Vb.
  pose proof (op_not_ok a Wa) as [Wn Vn].
  pose proof (op_add_ok _ uint128_1 Wn (wf_of64 1 eq_refl)) as [Wm Vm].
  split; [apply op_add_ok; assumption|]. split; [apply op_sub_ok; assumption|]. split; [split; assumption|].
  split; [exact Wm|]. unfold op_neg. rewrite Vm, Vn. unfold uint128_1. rewrite val_of64.
  pose proof (wf_bound a Wa) as B. f_equal. lia.
Qed.

(** C23: multiplication is exact modulo 2^128. *)
Theorem C23_mul a b x y : is a x -> is b y -> is (op_mul a b) ((x * y) mod W128).
Proof. rewrite !is_iff. intros [Wa Va] [Wb Vb]. rewrite <- Va, <- Vb. apply op_mul_ok; assumption. Qed.

(** C23: shifts by any 128-bit amount; amounts of 128 and more give zero. *)
Theorem C23_shift a s x n : is a x -> is s n ->
  is (op_shl a s) (if n <? 128 then (x * 2 ^ n) mod W128 else 0) /\
  is (op_shr a s) (if n <? 128 then x / 2 ^ n else 0).
Proof.
  rewrite !is_iff. intros [Wa Va] [Wb Vb]. rewrite <- Va, <- Vb.
  destruct (op_shl_ok a s Wa Wb) as [W1 V1]. destruct (op_shr_ok a s Wa Wb) as [W2 V2].
  rewrite V1, V2. pose proof (wf_bound a Wa) as B.
  destruct (val s <? 128) eqn:E.
  - replace (N.min 128 (val s)) with (val s) by lia. tauto.
  - replace (N.min 128 (val s)) with 128 by lia. change (2 ^ 128) with W128.
    rewrite N.mod_mul by lia. rewrite N.div_small by assumption. tauto.
Qed.

(** C23: comparisons, truth value, bit length. *)
Theorem C23_compare a b x y : is a x -> is b y ->
  op_eq a b = (x =? y) /\ op_ne a b = negb (x =? y) /\ op_lt a b = (x <? y) /\ op_gt a b = (y <? x) /\
  op_le a b = (x <=? y) /\ op_ge a b = (y <=? x) /\ to_bool a = negb (x =? 0) /\ bits a = N.size x.
Proof.
  rewrite !is_iff. intros [Wa Va] [Wb Vb]. rewrite <- Va, <- Vb.
  repeat split; auto using op_eq_ok, op_ne_ok, op_lt_ok, op_gt_ok, op_le_ok, op_ge_ok, to_bool_ok, bits_ok.
Qed.

(** C23: division with remainder; a zero divisor is refused with an exception. *)
Theorem C23_div a b x y : is a x -> is b y ->
  (y = 0 -> op_div a b = Throw /\ op_mod a b = Throw) /\
  (y <> 0 -> exists q r, op_div a b = Ret q /\ op_mod a b = Ret r /\ is q (x / y) /\ is r (x mod y)).
Proof.
  rewrite !is_iff. intros [Wa Va] [Wb Vb]. rewrite <- Va, <- Vb. split; intros H.
  - unfold op_div, op_mod. rewrite divmod_zero by assumption. split; reflexivity.
  - destruct (divmod_ok a b Wa Wb H) as (q & r & E & Wq & Wr & Vq & Vr).
    exists q, r. unfold op_div, op_mod. rewrite E, !is_iff. cbn. tauto.
Qed.

(** C24: the difficulty of a proof of work, for every scaling factor and hash prefix. *)
Theorem C24_difficulty scaling hash8 : scaling < W64 -> is_bytes hash8 -> length hash8 = 8%nat ->
  GetMaximumDifficulty scaling hash8 = Ret (difficulty_spec scaling (be_value hash8)).
Proof. exact (difficulty_ok scaling hash8). Qed.

(** C24: a numerically larger hash never has a larger difficulty. *)
Theorem C24_difficulty_antitone scaling h h' d d' : scaling < W64 ->
  is_bytes h -> is_bytes h' -> length h = 8%nat -> length h' = 8%nat -> be_value h <= be_value h' ->
  GetMaximumDifficulty scaling h = Ret d -> GetMaximumDifficulty scaling h' = Ret d' -> d' <= d.
Proof.
  intros Hs B B' L L' Hle. rewrite !difficulty_ok by assumption. intros E E'. inversion E. inversion E'.
  apply difficulty_antitone. assumption.
Qed.

(** The hypotheses are met by ordinary values. *)
Example C23_example :
  let a := mk128 3 18446744073709551615 in let b := mk128 0 7 in
  is a (4 * W64 - 1) /\ is b 7 /\
  op_mul a b = mk128 27 18446744073709551609 /\ op_div a b = Ret (mk128 0 10540996613548315209) /\
  op_mod a b = Ret (mk128 0 0).
Proof. cbv zeta. repeat split; vm_compute; reflexivity. Qed.
Example C24_example : GetMaximumDifficulty 16384 [0;0;1;0;0;0;255;255] = Ret 274877890560.
Proof. vm_compute. reflexivity. Qed.

Print Assumptions C23_add_sub.
Print Assumptions C23_mul.
Print Assumptions C23_shift.
Print Assumptions C23_compare.
Print Assumptions C23_div.
Print Assumptions C24_difficulty.
Print Assumptions C24_difficulty_antitone.
